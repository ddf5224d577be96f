(** Proofs: trees in an array some of whose cells were cleared without being counted out (SplayTree.split): rotations, splaying, insertion.
    The lemmas repeat those of TreeDel2.v, TreeSplay.v, TreeBst.v for [gapped] states. *)
From Coq Require Import Sorting.Sorted.
From Verif Require Import Base TreeModel TreeModel2 TreeSpec TreeProofs TreeRotate TreeBst TreeTrav TreeQuery TreeLca TreeDel TreeHist TreeBalSpec TreeAvl TreeAvl2 TreeSim TreeTreap TreeSplay TreeReins TreeMulti TreeDel2 TreeDel3 TreeDel4 TreeCompact TreeDel5.

Section Gap.
  Context {D : Type}.
  Notation info := (info D). Notation node := (node D). Notation mem := (mem D). Notation bst := (bst D). Notation bt := (bt D). Notation ctx := (ctx D).
  Record gapped (b : bst) (T : bt) : Prop := {
    q_at : tree_at (b_mem b) (b_root b) T;
    q_num : a_num (b_arr b) = b_size b;
    q_last : a_last (b_arr b) = b_size b - 1;
    q_cap : b_size b <= len (b_mem b) <= 2 * b_size b - 1;
    q_idx : forall i, In i (idx T) -> 0 <= i < b_size b }.
  Lemma grown_gapped b T : grown b T -> gapped b T.
  Proof. intros [A B C F G _]. split; assumption. Qed.
  Lemma gapped_neq (b : bst) (T : bt) : gapped b T -> forall z, (cnt z (idx T) <= 1)%nat.
  Proof. intros G. apply nodup_cnt. apply (q_at _ _ G). Qed.
  Lemma gapped_step (b : bst) T (m' : mem) rt' T' : gapped b T -> tree_at m' rt' T' -> len m' = len (b_mem b) -> (forall z, cnt z (idx T') = cnt z (idx T)) -> gapped (set_root (set_mem b m') rt') T'.
  Proof.
    intros [G1 G2 G3 G4 G5] HT HL HC. split; unfold b_mem in *; cbn [set_root set_mem b_arr b_root b_size a_data a_num a_last] in *; rewrite ?HL; auto.
    intros i Hi. apply G5. rewrite cnt_In in *. rewrite <- HC. exact Hi.
  Qed.
  Lemma q_tget_at (b : bst) c l i x r : gapped b (plug c (N l i x r)) -> tget (b_mem b) (Some i) = Ret (mknode x (root l) (root r) (cpar c)).
  Proof. intros G. apply tget_ok, (sub_cell _ _ _ _ _ _ _ (q_at _ _ G)). Qed.
  Lemma q_on_mem_info (b : bst) c l i x r f : gapped b (plug c (N l i x r)) -> exists b', on_mem (fun t => tmod t (Some i) (set_inf f)) b = Ret b' /\ gapped b' (plug c (N l i (f x) r)) /\ keepsb b b' /\ b_root b' = b_root b.
  Proof.
    intros G. assert (HT := q_at _ _ G). assert (HC := sub_cell _ _ _ _ _ _ _ HT). destruct (set_info_ok _ _ _ _ _ _ _ (f x) HT) as (m' & E1 & HT' & F). unfold on_mem. rewrite (tmod_inf _ _ _ _ HC). cbn [n_inf]. rewrite E1. cbn [bind].
    exists (set_mem b m'). split; [reflexivity|]. split; [|split; [split; [reflexivity|]; split; [reflexivity|]; split; [reflexivity|apply (frame_len _ _ _ F)]|reflexivity]]. rewrite <- set_root_same. eapply gapped_step; [exact G|exact HT'|apply (frame_len _ _ _ F)|].
    intros z. rewrite !cnt_plug. reflexivity.
  Qed.
  Lemma q_rot_ok (f : mem -> option Z -> option Z -> option Z -> res (mem * option Z)) (b : bst) j k T T' : gapped b T ->
    (tree_at (b_mem b) (b_root b) T -> exists m' rt', f (b_mem b) (b_root b) (Some j) (Some k) = Ret (m', rt') /\ tree_at m' rt' T' /\ frame (b_mem b) m' (idx T)) ->
    (forall z, cnt z (idx T') = cnt z (idx T)) -> exists b', rot f b (Some j) (Some k) = Ret b' /\ gapped b' T' /\ keepsb b b'.
  Proof.
    intros G HF HC. destruct (HF (q_at _ _ G)) as (m' & rt' & E1 & HT & F). unfold rot. rewrite E1. cbn [bind]. exists (set_root (set_mem b m') rt'). split; [reflexivity|]. split; [eapply gapped_step; [exact G|exact HT|apply (frame_len _ _ _ F)|exact HC]|]. split; [reflexivity|]. split; [reflexivity|]. split; [reflexivity|apply (frame_len _ _ _ F)].
  Qed.
  Lemma q_rot_right (b : bst) (c : ctx) (a : bt) k xk (v : bt) j xj (d : bt) : gapped b (plug c (N (N a k xk v) j xj d)) -> exists b', rot right_rotate b (Some j) (Some k) = Ret b' /\ gapped b' (plug c (N a k xk (N v j xj d))) /\ keepsb b b'.
  Proof. intros G. eapply q_rot_ok; [exact G|intros HT; apply (right_rotate_ok _ _ _ _ _ _ _ _ _ _ HT)|]. intros z. cnts. lia. Qed.
  Lemma q_rot_left (b : bst) (c : ctx) (a : bt) k xk (v : bt) j xj (d : bt) : gapped b (plug c (N a j xj (N v k xk d))) -> exists b', rot left_rotate b (Some j) (Some k) = Ret b' /\ gapped b' (plug c (N (N a j xj v) k xk d)) /\ keepsb b b'.
  Proof. intros G. eapply q_rot_ok; [exact G|intros HT; apply (left_rotate_ok _ _ _ _ _ _ _ _ _ _ HT)|]. intros z. cnts. lia. Qed.
  Lemma q_rot_left_right (b : bst) (c : ctx) (a : bt) k xk (v : bt) i xi (w : bt) j xj (d : bt) : gapped b (plug c (N (N a k xk (N v i xi w)) j xj d)) -> exists b', rot left_right_rotate b (Some j) (Some k) = Ret b' /\ gapped b' (plug c (N (N a k xk v) i xi (N w j xj d))) /\ keepsb b b'.
  Proof. intros G. eapply q_rot_ok; [exact G|intros HT; apply (left_right_rotate_ok _ _ _ _ _ _ _ _ _ _ _ _ _ HT)|]. intros z. cnts. lia. Qed.
  Lemma q_rot_right_left (b : bst) (c : ctx) (a : bt) k xk (v : bt) i xi (w : bt) j xj (d : bt) : gapped b (plug c (N a j xj (N (N v i xi w) k xk d))) -> exists b', rot right_left_rotate b (Some j) (Some k) = Ret b' /\ gapped b' (plug c (N (N a j xj v) i xi (N w k xk d))) /\ keepsb b b'.
  Proof. intros G. eapply q_rot_ok; [exact G|intros HT; apply (right_left_rotate_ok _ _ _ _ _ _ _ _ _ _ _ _ _ HT)|]. intros z. cnts. lia. Qed.
  Lemma gapped_sub (b : bst) c l i x r : gapped b (plug c (N l i x r)) -> rep (b_mem b) l (Some i) /\ rep (b_mem b) r (Some i).
  Proof. intros G. destruct (q_at _ _ G) as (HR & _). apply rep_plug in HR as (_ & _ & A & B). auto. Qed.
  Lemma q_fix_size_any (b : bst) c l i x r : gapped b (plug c (N l i x r)) -> exists b' z, on_mem (fun t => fix_size t (Some i)) b = Ret b' /\ gapped b' (plug c (N l i (with_size z x) r)) /\ keepsb b b' /\ b_root b' = b_root b.
  Proof.
    intros G. destruct (gapped_sub _ _ _ _ _ _ G) as [RL RR]. assert (ET := q_tget_at _ _ _ _ _ _ G).
    destruct (lsize_any _ l _ (mknode x (root l) (root r) (cpar c)) RL eq_refl) as (zl & El). destruct (rsize_any _ r _ (mknode x (root l) (root r) (cpar c)) RR eq_refl) as (zr & Er).
    destruct (q_on_mem_info b c l i x r (with_size (zl + zr + 1)) G) as (b' & E1 & G' & K & R). exists b', (zl + zr + 1). split; [|auto]. rewrite <- E1. unfold on_mem, fix_size. rewrite ET. cbn [bind]. rewrite El. cbn [bind]. rewrite Er. reflexivity.
  Qed.
  Lemma q_size_loop (c : ctx) : forall (f : nat) (b : bst) (S : bt), gapped b (plug c S) -> (clen c < f)%nat ->
    exists b' c', while_loop f size_body (b_mem b, cpar c) = Ret (b_mem b') /\ gapped b' (plug c' S) /\ cz c c' /\ keepsb b b' /\ b' = set_mem b (b_mem b').
  Proof.
    induction c as [|c IH i x r|c IH l i x]; intros f b S G Hf; (destruct f as [|f]; [lia|]); cbn [while_loop size_body cpar].
    - exists b, Top. split; [reflexivity|]. split; [exact G|]. split; [exact I|]. split; [apply keepsb_refl|]. destruct b as [[a1 a2 a3] ? ? ? ?]. reflexivity.
    - cbn [plug clen] in *. destruct (q_fix_size_any b c S i x r G) as (b1 & z & E1 & G1 & K1 & R1). unfold on_mem in E1. destruct (fix_size (b_mem b) (Some i)) as [t| |] eqn:E2; cbn [bind] in E1; [|discriminate..]. injection E1 as E1.
      cbn [bind]. assert (Et : t = b_mem b1) by (rewrite <- E1; reflexivity). rewrite Et. rewrite (q_tget_at _ _ _ _ _ _ G1). cbn [bind n_parent]. destruct (IH f b1 (N S i (with_size z x) r) G1 ltac:(lia)) as (b2 & c2 & E3 & G3 & C3 & K3 & M3).
      exists b2, (CL c2 i (with_size z x) r). cbn [plug cz]. split; [exact E3|]. split; [exact G3|]. split; [eauto 10|]. split; [eapply keepsb_trans; eassumption|]. rewrite M3, <- E1. reflexivity.
    - cbn [plug clen] in *. destruct (q_fix_size_any b c l i x S G) as (b1 & z & E1 & G1 & K1 & R1). unfold on_mem in E1. destruct (fix_size (b_mem b) (Some i)) as [t| |] eqn:E2; cbn [bind] in E1; [|discriminate..]. injection E1 as E1.
      cbn [bind]. assert (Et : t = b_mem b1) by (rewrite <- E1; reflexivity). rewrite Et. rewrite (q_tget_at _ _ _ _ _ _ G1). cbn [bind n_parent]. destruct (IH f b1 (N l i (with_size z x) S) G1 ltac:(lia)) as (b2 & c2 & E3 & G3 & C3 & K3 & M3).
      exists b2, (CR c2 l i (with_size z x)). cbn [plug cz]. split; [exact E3|]. split; [exact G3|]. split; [eauto 10|]. split; [eapply keepsb_trans; eassumption|]. rewrite M3, <- E1. reflexivity.
  Qed.
  Lemma q_update_size (b : bst) c (S : bt) : gapped b (plug c S) -> exists b' c', update_size b (cpar c) = Ret b' /\ gapped b' (plug c' S) /\ cz c c' /\ keepsb b b'.
  Proof.
    intros G. unfold update_size. destruct (b_os b) eqn:Eos; [|exists b, c; auto using cz_refl, keepsb_refl].
    change (while_loop (fuel (b_mem b)) _ _) with (while_loop (fuel (b_mem b)) size_body (b_mem b, cpar c)).
    assert (HF : (clen c < fuel (b_mem b))%nat). { assert (HN := nodes_mem _ _ _ (proj1 (q_at _ _ G)) (proj1 (proj2 (q_at _ _ G)))). rewrite nodes_len in HN. unfold len in HN. rewrite len_idx_plug in HN. pose proof (clen_le c). unfold fuel. lia. }
    destruct (q_size_loop c _ b S G HF) as (b1 & c1 & E1 & G1 & C1 & K1 & M1). rewrite E1. cbn [bind]. exists b1, c1. split; [rewrite M1; reflexivity|]. auto.
  Qed.
  Ltac ents_go EN1 := rewrite <- EN1; cbn [plug]; try apply ents_plug; rewrite ?ents_N; repeat (rewrite <- ?app_assoc; cbn [app]); reflexivity.
  Lemma q_splay_ok (b : bst) (c : ctx) (l : bt) s x (r : bt) : gapped b (plug c (N l s x r)) ->
    exists b' l' r', splay b (Some s) (cpar c) = Ret b' /\ gapped b' (N l' s x r') /\ ents (N l' s x r') = ents (plug c (N l s x r)) /\ keepsb b b'.
  Proof.
    intros G. unfold splay. remember (ents (plug c (N l s x r))) as EN eqn:EEN. symmetry in EEN.
    match goal with |- context [while_loop ?f ?bd ?s0] => assert (W : wp (while_loop f bd s0) (fun b' => exists l' r', gapped b' (N l' s x r') /\ ents (N l' s x r') = EN /\ keepsb b b')) end.
    { eapply (wp_while_g (fun n st => exists c l r, n = clen c /\ snd st = cpar c /\ gapped (fst st) (plug c (N l s x r)) /\ keepsb b (fst st) /\ ents (plug c (N l s x r)) = EN)) with (n := clen c).
      - clear c l r G EEN. intros n [b1 p] (c & l & r & -> & Ep & G & K & EN1). cbn [fst snd] in *. subst p. rewrite (q_tget_at _ _ _ _ _ _ G). cbn [bind n_parent]. assert (ND := gapped_neq _ _ G).
        assert (FIN : forall (c2 : ctx) (l2 r2 : bt) b2, (clen c2 < clen c)%nat -> gapped b2 (plug c2 (N l2 s x r2)) -> keepsb b1 b2 -> ents (plug c2 (N l2 s x r2)) = EN ->
           wp (xn <- tget (b_mem b2) (Some s) ;; Ret (Next (b2, n_parent xn))) (fun r0 => match r0 with Next s' => exists n', (n' < clen c)%nat /\ exists c l r, n' = clen c /\ snd s' = cpar c /\ gapped (fst s') (plug c (N l s x r)) /\ keepsb b (fst s') /\ ents (plug c (N l s x r)) = EN | Break b' => exists l' r', gapped b' (N l' s x r') /\ ents (N l' s x r') = EN /\ keepsb b b' end)).
        { intros c2 l2 r2 b2 L G2 K2 EN2. rewrite (q_tget_at _ _ _ _ _ _ G2). cbn [bind n_parent wp fst snd]. exists (clen c2). split; [exact L|]. exists c2, l2, r2. do 2 (split; [reflexivity|]). split; [exact G2|]. split; [eapply keepsb_trans; eassumption|exact EN2]. }
        destruct c as [|c j y q|c q j y]; cbn [cpar plug clen] in *; [cbn [wp]; eauto|..].
        + rewrite (q_tget_at b1 c _ j y q G). cbn [bind n_parent]. destruct c as [|c g z w|c w g z]; cbn [cpar plug clen] in *.
          * unfold zig. rewrite (q_tget_at b1 Top _ j y q G). cbn [bind n_left root]. rewrite oeqb_yes. destruct (q_rot_right b1 Top l s x r j y q G) as (b2 & E2 & G2 & K2). rewrite E2. cbn [bind]. eapply (FIN Top); [cbn; lia|exact G2|exact K2|ents_go EN1].
          * rewrite (q_tget_at b1 c _ g z w G). cbn [bind n_left n_right root]. rewrite !oeqb_yes. cbn [andb]. unfold zig_zig. rewrite (q_tget_at b1 (CL c g z w) _ j y q G). cbn [bind n_parent cpar].
            destruct (q_rot_right b1 c (N l s x r) j y q g z w G) as (b2 & E2 & G2 & K2). rewrite E2. cbn [bind]. destruct (q_rot_right b2 c l s x r j y (N q g z w) G2) as (b3 & E3 & G3 & K3). rewrite E3. cbn [bind]. eapply (FIN c); [lia|exact G3|eapply keepsb_trans; eassumption|ents_go EN1].
          * rewrite (q_tget_at b1 c w g z _ G). cbn [bind n_left n_right root]. rewrite !oeqb_yes. rewrite (oeqb_no (root w) (Some j)) by (intros X; apply root_In in X; dj ND). rewrite (oeqb_no (root q) (Some s)) by (intros X; apply root_In in X; dj ND). cbn [andb]. unfold zag_zig. rewrite (q_tget_at b1 (CR c w g z) _ j y q G). cbn [bind n_parent cpar].
            destruct (q_rot_right_left b1 c w j y l s x r g z q G) as (b2 & E2 & G2 & K2). rewrite E2. cbn [bind]. eapply (FIN c); [lia|exact G2|exact K2|ents_go EN1].
        + rewrite (q_tget_at b1 c q j y _ G). cbn [bind n_parent]. destruct c as [|c g z w|c w g z]; cbn [cpar plug clen] in *.
          * unfold zig. rewrite (q_tget_at b1 Top q j y _ G). cbn [bind n_left root]. rewrite oeqb_no by (intros X; apply root_In in X; dj ND). destruct (q_rot_left b1 Top q s x l j y r G) as (b2 & E2 & G2 & K2). rewrite E2. cbn [bind]. eapply (FIN Top); [cbn; lia|exact G2|exact K2|ents_go EN1].
          * rewrite (q_tget_at b1 c _ g z w G). cbn [bind n_left n_right root]. rewrite !oeqb_yes. rewrite (oeqb_no (root q) (Some s)) by (intros X; apply root_In in X; dj ND). rewrite (oeqb_no (root w) (Some j)) by (intros X; apply root_In in X; dj ND). cbn [andb]. unfold zig_zag. rewrite (q_tget_at b1 (CL c g z w) q j y _ G). cbn [bind n_parent cpar].
            destruct (q_rot_left_right b1 c q j y l s x r g z w G) as (b2 & E2 & G2 & K2). rewrite E2. cbn [bind]. eapply (FIN c); [lia|exact G2|exact K2|ents_go EN1].
          * rewrite (q_tget_at b1 c w g z _ G). cbn [bind n_left n_right root]. rewrite !oeqb_yes. rewrite (oeqb_no (root q) (Some s)) by (intros X; apply root_In in X; dj ND). cbn [andb]. unfold zag_zag. rewrite (q_tget_at b1 (CR c w g z) q j y _ G). cbn [bind n_parent cpar].
            destruct (q_rot_left b1 c w j y q g z (N l s x r) G) as (b2 & E2 & G2 & K2). rewrite E2. cbn [bind]. destruct (q_rot_left b2 c (N w g z q) s x l j y r G2) as (b3 & E3 & G3 & K3). rewrite E3. cbn [bind]. eapply (FIN c); [lia|exact G3|eapply keepsb_trans; eassumption|ents_go EN1].
      - exists c, l, r. split; [reflexivity|]. split; [reflexivity|]. split; [exact G|]. split; [apply keepsb_refl|exact EEN].
      - assert (HF := clen_fuel _ _ _ _ _ _ _ (q_at _ _ G)). lia. }
    apply wp_ex in W as (b1 & E1 & l1 & r1 & G1 & EN1 & K1). rewrite E1. exists b1, l1, r1. auto.
  Qed.
  (** the length of the array after an append at position [s] *)
  Definition grow (s n : Z) : Z := if s =? n then 2 * n + 1 else n.
  Lemma append_len (a a' : aft D) el s : a_num a = s -> a_last a = s - 1 -> s <= len (a_data a) <= 2 * s - 1 -> aft_append a el = Ret a' -> len (a_data a') = grow s (len (a_data a)).
  Proof.
    intros E1 E2 HC. unfold aft_append. rewrite E1, E2. replace (s - 1 + 1) with s by lia.
    set (data := if s =? len (a_data a) then a_data a ++ repeat None (Z.to_nat (len (a_data a) + 1)) else a_data a).
    assert (LD : len data = grow s (len (a_data a))). { unfold data, grow. destruct (Z.eqb_spec s (len (a_data a))); [unfold len in *; rewrite app_length, repeat_length; lia|lia]. }
    assert (LB : s + 1 <= len data <= 2 * (s + 1) - 1) by (rewrite LD; unfold grow; destruct (Z.eqb_spec s (len (a_data a))); lia).
    rewrite aset_ok by lia. cbn [bind]. unfold aft_modify. cbn [a_num a_data a_last]. rewrite len_zupd. destruct (Z.ltb_spec (4 * (s + 1)) (len data)); [lia|]. cbn [bind]. intros [= <-]. cbn [a_data]. rewrite len_zupd. exact LD.
  Qed.
  Lemma q_insert_pre b T key d c0 : default b -> gapped b T -> ordered (infos T) -> T <> E -> at_key key T c0 E ->
    exists c b', at_key key T c E /\ c <> Top /\ insert b key d = update_size b' (Some (b_size b)) /\ gapped b' (plug c (N E (b_size b) (new_info (Some key) d) E)) /\ b_comp b' = b_comp b /\ b_os b' = b_os b /\ b_size b' = b_size b + 1 /\ b_root b' = b_root b /\ len (b_mem b') = grow (b_size b) (len (b_mem b)).
  Proof.
    intros HD G HO HE HA. assert (HT := q_at _ _ G). destruct (search_ok b T key HD HT HO HE) as (c1 & S1 & E1 & _ & K1).
    assert (AB := absent _ _ _ HA). assert (S1 = E). { destruct K1 as (ET & _ & [-> | (l & i & x & r & -> & Ek)]); [reflexivity|]. rewrite ET, infos_plug in AB. rewrite !Forall_app in AB. destruct AB as (_ & AB & _). cbn [infos] in AB. apply Forall_app in AB as [_ AB]. inversion AB as [|? ? AX _]; subst. unfold kis in AX. rewrite Ek in AX. congruence. }
    subst S1. cbn [root] in E1. unfold insert. rewrite E1. cbn [bind]. destruct (root_keyed b T HT HO HE) as (n0 & k0 & En & Ek0). rewrite En. cbn [bind]. rewrite Ek0.
    match goal with |- context [while_loop ?f ?bd ?s] => assert (W : wp (while_loop f bd s) (fun r => exists c b', at_key key T c E /\ c <> Top /\ snd r = Some (b_size b) /\ fst r = b' /\ tree_at (b_mem b') (b_root b) (plug c (N E (b_size b) (new_info (Some key) d) E)) /\ a_num (b_arr b') = b_size b + 1 /\ a_last (b_arr b') = b_size b /\ b_size b + 1 <= len (b_mem b') <= 2 * (b_size b + 1) - 1 /\ b_comp b' = b_comp b /\ b_os b' = b_os b /\ b_size b' = b_size b + 1 /\ b_root b' = b_root b /\ len (b_mem b') = grow (b_size b) (len (b_mem b)))) end.
    { eapply (wp_while_g (fun n s => exists c l i x r, s = (Some i, Some i) /\ T = plug c (N l i x r) /\ path_to key c /\ n = Z.to_nat (nodes (N l i x r)))).
      - intros n s (c & l & i & x & r & -> & ET & HP & ->). rewrite ET in HT, HO, AB. assert (HC := sub_cell _ _ _ _ _ _ _ HT). rewrite (tget_ok _ _ _ HC). cbn [bind]. unfold n_key. cbn [n_inf n_left n_right].
        destruct (ordered_here _ _ _ _ _ HO) as (k & Ek & _ & _ & F1 & F2). rewrite Ek. unfold comparator. rewrite HD. cbn [bind].
        assert (NE : k <> key). { rewrite infos_plug, !Forall_app in AB. destruct AB as (_ & AB & _). cbn [infos] in AB. apply Forall_app in AB as [_ AB]. inversion AB as [|? ? AX _]; subst. unfold kis in AX. rewrite Ek in AX. exact AX. }
        assert (NI : ~ In (b_size b) (idx T)). { intros H. apply (q_idx _ _ G) in H. lia. }
        assert (NIi : i <> b_size b). { intros ->. apply NI. rewrite ET, cnt_In, cnt_plug. cbn [idx]. rewrite cnt_app, cnt_cons, Z.eqb_refl. lia. }
        pose proof (nodes_nonneg l). pose proof (nodes_nonneg r). destruct (Z.ltb_spec key k) as [L|L]; cbn [negb].
        + destruct l as [|ll li lx lr]; cbn [root].
          * destruct (append_ok (b_arr b) (set_parent (Some i) (new_node (Some key) d)) (b_size b) (q_num _ _ G) (q_last _ _ G) (q_cap _ _ G)) as (a & Ea & A1 & A2 & A3 & A4 & A5). assert (AL := append_len _ _ _ _ (q_num _ _ G) (q_last _ _ G) (q_cap _ _ G) Ea). rewrite Ea. cbn [bind].
            assert (HCa : cell (a_data a) i = Some (mknode x None (root r) (cpar c))) by (rewrite A5 by exact NIi; exact HC).
            destruct (tmod_step (a_data a) i (set_left (Some (b_size b))) _ HCa) as (m2 & E2 & H2 & FR2). rewrite E2. cbn [bind]. rewrite (tget_ok _ _ _ H2). cbn [bind wp n_left set_left fst snd].
            exists (CL c i x r). eexists. split; [split; [exact ET|]; split; [eapply path_left; eassumption|left; reflexivity]|]. split; [discriminate|]. split; [reflexivity|]. split; [reflexivity|].
            cbn [b_mem set_bsize set_mem set_arr b_arr a_data a_num a_last b_comp b_os b_size b_root]. split; [|rewrite (proj1 FR2); auto 12].
            cbn [plug]. eapply (link_left (b_mem b)); [exact HT|rewrite <- ET; exact NI| |exact H2|].
            -- rewrite (proj2 FR2) by (intros [X|[]]; congruence). exact A4.
            -- intros z Z1 Z2. rewrite (proj2 FR2) by (intros [X|[]]; congruence). apply A5. exact Z1.
          * cbn [wp]. eexists. split; [|exists (CL c i x r), ll, li, lx, lr; split; [reflexivity|]; split; [exact ET|]; split; [eapply path_left; eassumption|reflexivity]]. cbn [nodes] in *. pose proof (nodes_nonneg ll). pose proof (nodes_nonneg lr). lia.
        + destruct r as [|rl ri rx rr]; cbn [root].
          * destruct (append_ok (b_arr b) (set_parent (Some i) (new_node (Some key) d)) (b_size b) (q_num _ _ G) (q_last _ _ G) (q_cap _ _ G)) as (a & Ea & A1 & A2 & A3 & A4 & A5). assert (AL := append_len _ _ _ _ (q_num _ _ G) (q_last _ _ G) (q_cap _ _ G) Ea). rewrite Ea. cbn [bind].
            assert (HCa : cell (a_data a) i = Some (mknode x (root l) None (cpar c))) by (rewrite A5 by exact NIi; exact HC).
            destruct (tmod_step (a_data a) i (set_right (Some (b_size b))) _ HCa) as (m2 & E2 & H2 & FR2). rewrite E2. cbn [bind]. rewrite (tget_ok _ _ _ H2). cbn [bind wp n_right set_right fst snd].
            exists (CR c l i x). eexists. split; [split; [exact ET|]; split; [eapply path_right; try eassumption; lia|left; reflexivity]|]. split; [discriminate|]. split; [reflexivity|]. split; [reflexivity|].
            cbn [b_mem set_bsize set_mem set_arr b_arr a_data a_num a_last b_comp b_os b_size b_root]. split; [|rewrite (proj1 FR2); auto 12].
            cbn [plug]. eapply (link_right (b_mem b)); [exact HT|rewrite <- ET; exact NI| |exact H2|].
            -- rewrite (proj2 FR2) by (intros [X|[]]; congruence). exact A4.
            -- intros z Z1 Z2. rewrite (proj2 FR2) by (intros [X|[]]; congruence). apply A5. exact Z1.
          * cbn [wp]. eexists. split; [|exists (CR c l i x), rl, ri, rx, rr; split; [reflexivity|]; split; [exact ET|]; split; [eapply path_right; try eassumption; lia|reflexivity]]. cbn [nodes] in *. pose proof (nodes_nonneg rl). pose proof (nodes_nonneg rr). lia.
      - destruct (root_cell _ _ _ HT HE) as (l & i & x & r & -> & -> & _). exists Top, l, i, x, r. split; [reflexivity|]. split; [reflexivity|]. split; [split; constructor|reflexivity].
      - apply (fuel_ok _ _ _ HT). }
    apply wp_ex in W as ([b1 w] & EW & c & b' & K & NT & Ew & Eb & HT1 & N1 & N2 & N3 & N4 & N5 & N6 & N7 & N8). cbn [fst snd] in Ew, Eb. subst w b1. rewrite EW. cbn [bind].
    assert (ETc := proj1 K).
    assert (GI : forall z, In z (idx (addleaf false c (b_size b) (new_info (Some key) d))) -> 0 <= z < b_size b + 1).
    { intros z Hz. rewrite cnt_In, idx_addleaf, <- ETc in Hz. destruct (Z.eqb_spec z (b_size b)) as [Ez|NE].
      - pose proof (q_cap _ _ G). lia.
      - assert (In z (idx T)) as HI by (apply cnt_In; lia). apply (q_idx _ _ G) in HI. lia. }
    exists c, b'. split; [exact K|]. split; [exact NT|]. split; [reflexivity|]. split; [|auto].
    constructor; rewrite ?N6; rewrite ?N7; try assumption; try lia.
  Qed.

  (** insertion of a new key *)
  Lemma q_insert_any (b : bst) T h key d : default b -> gapped b T -> cont T h -> T <> E -> last_data h key = None ->
    exists c' b' x, insert b key d = Ret b' /\ b_comp b' = b_comp b /\ b_os b' = b_os b /\ b_size b' = b_size b + 1 /\ gapped b' (plug c' (N E (b_size b) x E)) /\ k_key x = Some key /\
      cont (plug c' (N E (b_size b) x E)) (h ++ [(key, d)]) /\ search_parent b' key = Ret (Some (b_size b), cpar c') /\ len (b_mem b') = grow (b_size b) (len (b_mem b)).
  Proof.
    intros HD G C HE HL. destruct (search_ok b T key HD (q_at _ _ G) (proj1 C) HE) as (c0 & S0 & _ & _ & K0).
    assert (ES : S0 = E). { destruct K0 as (ET & _ & [-> | (l & i & x & r & -> & Ek)]); [reflexivity|]. exfalso. assert (X : last_data h key = Some (k_data x)); [|congruence]. apply (proj2 C). unfold ents. rewrite ET, infos_plug. cbn [infos]. rewrite !map_app, !in_app_iff. right. left. right. left. unfold ent. rewrite Ek. reflexivity. }
    subst S0. destruct (q_insert_pre b T key d c0 HD G (proj1 C) HE K0) as (c & b1 & K & NT & E1 & G1 & N4 & N5 & N6 & N7 & N8).
    destruct (q_update_size b1 (CL c (b_size b) (new_info (Some key) d) E) E G1) as (b2 & c2' & E2 & G2 & CZ & K2). destruct c2' as [|c2 i2 x r2|? ? ? ?]; cbn [cz] in CZ; try contradiction. destruct CZ as (-> & (z & Ex) & -> & CZ). cbn [plug cpar] in *.
    assert (EX : ent x = (Some key, d)) by (rewrite Ex; reflexivity).
    assert (CX : cont (plug c2 (N E (b_size b) x E)) (h ++ [(key, d)])).
    { apply (insert_cont T _ h key d c E C K). cbn [kl kr app]. rewrite app_nil_r. unfold ents. rewrite infos_plug. cbn [infos app]. rewrite map_app. cbn [map]. rewrite EX. destruct (csim_ents c c2 (cz_sim _ _ CZ)) as [-> ->]. reflexivity. }
    exists c2, b2, x. rewrite E1, E2. split; [reflexivity|]. destruct K2 as (K2 & K3 & K4 & K5). split; [congruence|]. split; [congruence|]. split; [congruence|]. split; [exact G2|]. assert (HX : k_key x = Some key) by (injection EX as EX _; exact EX). split; [exact HX|]. split; [exact CX|].
    split; [|congruence]. apply (search_at b2 c2 E (b_size b) x E key); [unfold default in *; congruence|apply (q_at _ _ G2)|apply CX|exact HX].
  Qed.
  (** the states of a splay tree under inserts and splits *)
  Record qgood (b : bst) (T : bt) (h : list (Z * option D)) : Prop := { qg_def : default b; qg_gap : gapped b T; qg_cont : cont T h; qg_ne : T <> E }.
  Lemma q_splay_insert (b : bst) T h k d : qgood b T h -> last_data h k = None -> exists b' T', splay_insert b k d = Ret b' /\ qgood b' T' (h ++ [(k, d)]) /\ rkey T' = Some k /\ len (b_mem b') = grow (b_size b) (len (b_mem b)) /\ b_size b' = b_size b + 1.
  Proof.
    intros [PD PG PC PN] HL. destruct (q_insert_any b T h k d PD PG PC PN HL) as (c' & b1 & x & E1 & B1 & B2 & B3 & G1 & FX & C1 & ES & NL). unfold splay_insert. rewrite E1. cbn [bind]. rewrite ES. cbn [bind]. rewrite B3. replace (b_size b + 1 - 1) with (b_size b) by lia.
    destruct (q_on_mem_info b1 c' E (b_size b) x E (fun y => y) G1) as (b2 & E2 & G2 & K2 & _). unfold on_mem in E2.
    assert (HC := sub_cell _ _ _ _ _ _ _ (q_at _ _ G1)). rewrite (tmod_ok _ _ _ _ HC) in E2. cbn [bind] in E2. rewrite (tmod_ok _ _ _ _ HC). cbn [bind]. injection E2 as E2. match goal with |- context [splay ?m _ _] => replace m with b2 by (rewrite <- E2; reflexivity) end.
    destruct (q_splay_ok b2 c' E (b_size b) x E G2) as (b3 & l' & r' & E3 & G3 & N3 & K3). rewrite E3. exists b3, (N l' (b_size b) x r'). split; [reflexivity|]. destruct K2 as (K21 & K22 & K23 & K24), K3 as (K31 & K32 & K33 & K34).
    split; [|split; [cbn [rkey]; exact FX|split; congruence]]. split; [unfold default in *; congruence|exact G3| |discriminate]. eapply cont_ents; [symmetry; exact N3|exact C1].
  Qed.
End Gap.
