(** Proofs: CartesianTree.delete (and Treap's, which is the same) keeps the key order and the heap order. *)
From Coq Require Import Sorting.Sorted.
From Verif Require Import Base TreeModel TreeModel2 TreeSpec TreeProofs TreeRotate TreeBst TreeTrav TreeQuery TreeLca TreeDel TreeHist TreeBalSpec TreeAvl TreeAvl2 TreeSim TreeTreap TreeSplay TreeRb TreeReins TreeMulti TreeDelSpec TreeDel2 TreeDel3 TreeDel4 TreeCompact.

Section Del5.
  Context {D : Type}.
  Notation info := (info D). Notation node := (node D). Notation mem := (mem D). Notation bst := (bst D). Notation bt := (bt D). Notation ctx := (ctx D).
  (** one step of the loop of search *)
  Definition sbody (b : bst) (key : Z) : option Z * option Z -> res (ctl (option Z * option Z) (option Z * option Z)) := fun '(walk, parent) =>
    match walk with
    | None => Ret (Break (walk, parent))
    | Some _ => n <- tget (b_mem b) walk ;; if oeqb (n_key n) (Some key) then Ret (Break (walk, parent)) else lt <- comparator b (Some key) (n_key n) ;; Ret (Next (if lt : bool then n_left n else n_right n, walk))
    end.
  Lemma search_reach (b : bst) key c : forall S f, default b -> tree_at (b_mem b) (b_root b) (plug c S) -> path_to key c -> (clen c <= f)%nat ->
    while_loop f (sbody b key) (root (plug c S), None) = while_loop (f - clen c) (sbody b key) (root S, cpar c).
  Proof.
    induction c as [|c IH i x r|c IH l i x]; intros S f HD HT HP HF; cbn [plug clen cpar] in *.
    - rewrite Nat.sub_0_r. reflexivity.
    - assert (HP' : path_to key c /\ kis (fun k => key < k) x). { destruct HP as [P1 P2]. cbn [cl cr] in *. inversion P2 as [|? ? X1 X2]; subst. apply Forall_app in X2 as [_ X2]. split; [split; assumption|exact X1]. } destruct HP' as [HP' HX].
      rewrite (IH _ f HD HT HP' ltac:(lia)). destruct (f - clen c)%nat as [|g] eqn:Eg; [lia|]. replace (f - Datatypes.S (clen c))%nat with g by lia. cbn [while_loop sbody root]. rewrite (tget_ok _ _ _ (sub_cell _ _ _ _ _ _ _ HT)). cbn [bind n_left n_right]. unfold n_key. cbn [n_inf].
      unfold kis in HX. destruct (k_key x) as [k|]; [|destruct HX]. cbn [oeqb]. replace (k =? key) with false by lia. unfold comparator. rewrite HD. cbn [bind]. replace (key <? k) with true by lia. reflexivity.
    - assert (HP' : path_to key c /\ kis (fun k => k < key) x). { destruct HP as [P1 P2]. cbn [cl cr] in *. rewrite !Forall_app in P1. destruct P1 as (P1 & _ & P3). inversion P3; subst. split; [split; assumption|assumption]. } destruct HP' as [HP' HX].
      rewrite (IH _ f HD HT HP' ltac:(lia)). destruct (f - clen c)%nat as [|g] eqn:Eg; [lia|]. replace (f - Datatypes.S (clen c))%nat with g by lia. cbn [while_loop sbody root]. rewrite (tget_ok _ _ _ (sub_cell _ _ _ _ _ _ _ HT)). cbn [bind n_left n_right]. unfold n_key. cbn [n_inf].
      unfold kis in HX. destruct (k_key x) as [k|]; [|destruct HX]. cbn [oeqb]. replace (k =? key) with false by lia. unfold comparator. rewrite HD. cbn [bind]. replace (key <? k) with false by lia. reflexivity.
  Qed.
  (** search finds the node whose key it is given, with its parent *)
  Lemma search_at (b : bst) c l i x r key : default b -> tree_at (b_mem b) (b_root b) (plug c (N l i x r)) -> ordered (infos (plug c (N l i x r))) -> k_key x = Some key ->
    search_parent b key = Ret (Some i, cpar c) /\ search b key = Ret (Some i).
  Proof.
    intros HD HT HO Ek. assert (HF := clen_fuel _ _ _ _ _ _ _ HT). destruct (ordered_here _ _ _ _ _ HO) as (k & Ek' & _ & _ & F1 & F2). assert (k = key) by congruence. subst k. apply Forall_app in F1 as [F1 _]. apply Forall_app in F2 as [_ F2].
    assert (SL : search_loop b key = Ret (Some i, cpar c)).
    { unfold search_loop. change (fun '(walk, parent) => match walk with None => Ret (Break (walk, parent)) | Some _ => _ end) with (sbody b key). rewrite (proj2 (proj2 HT)), (search_reach b key c (N l i x r) _ HD HT (conj F1 F2)) by lia.
      destruct (fuel (b_mem b) - clen c)%nat as [|g] eqn:Eg; [lia|]. cbn [while_loop sbody root]. rewrite (tget_ok _ _ _ (sub_cell _ _ _ _ _ _ _ HT)). cbn [bind]. unfold n_key. cbn [n_inf]. rewrite Ek. cbn [oeqb]. rewrite Z.eqb_refl. reflexivity. }
    assert (NE := plug_ne c l i x r). destruct (plug c (N l i x r)) as [|l0 i0 x0 r0] eqn:EP; [congruence|]. assert (HC := sub_cell _ _ Top _ _ _ _ HT). destruct HT as (_ & _ & HR). cbn [root] in HR. destruct (ordered_here Top _ _ _ _ HO) as (k0 & Ek0 & _).
    unfold search_parent, search. rewrite HR, (tget_ok _ _ _ HC). cbn [bind]. unfold n_key. cbn [n_inf]. rewrite Ek0, SL. auto.
  Qed.
  (** no cell of the used part of the array is outside the tree *)
  Record snug (b : bst) (T : bt) : Prop := {
    sn_slim : slim b T;
    sn_tight : forall i, 0 <= i <= a_last (b_arr b) -> used (b_mem b) i = true -> In i (idx T);
    sn_last : a_last (b_arr b) < len (b_mem b) }.
  Lemma grown_snug b T : grown b T -> snug b T.
  Proof. intros G. split; [apply grown_slim; exact G|intros i Hi _; apply (all_idx b T i G); rewrite (g_last _ _ G) in Hi; lia|rewrite (g_last _ _ G); pose proof (g_cap _ _ G); lia]. Qed.
  Lemma cell_used (m : mem) i n : cell m i = Some n -> used m i = true.
  Proof. intros H. unfold used. rewrite H. reflexivity. Qed.
  Lemma used_cell (m : mem) i : used m i = true -> exists n, cell m i = Some n.
  Proof. unfold used. destruct (cell m i) as [n|]; [eauto|discriminate]. Qed.
  Lemma rep_used (m : mem) T : forall p, rep m T p -> forall i, In i (idx T) -> used m i = true.
  Proof. induction T as [|l IHl j x r IHr]; intros p; cbn [rep idx]; [intros _ i []|]. intros (A & B & C) i. rewrite in_app_iff. cbn [In]. intros [H|[<-|H]]; [eapply IHl; eassumption|eapply cell_used; exact A|eapply IHr; eassumption]. Qed.
  Lemma snug_rot_right (b : bst) (c : ctx) (a : bt) k xk (v : bt) j xj (d : bt) : snug b (plug c (N (N a k xk v) j xj d)) -> exists b', rot right_rotate b (Some j) (Some k) = Ret b' /\ snug b' (plug c (N a k xk (N v j xj d))) /\ keepsb b b'.
  Proof.
    intros [SP TI LA]. destruct (s_rot_right b c a k xk v j xj d SP) as (b' & E1 & SP' & K). exists b'. split; [exact E1|]. split; [|exact K]. unfold rot in E1. destruct (right_rotate_ok _ _ _ _ _ _ _ _ _ _ (sl_at _ _ SP)) as (m' & rt' & E2 & HT & F). rewrite E2 in E1. cbn [bind] in E1. injection E1 as <-.
    split; [exact SP'| |cbn [set_root set_mem b_arr b_mem a_last a_data]; rewrite (frame_len _ _ _ F); exact LA]. unfold b_mem in *. cbn [set_root set_mem b_arr a_last a_data] in *. intros i Hi U.
    assert (EI : forall z, In z (idx (plug c (N a k xk (N v j xj d)))) <-> In z (idx (plug c (N (N a k xk v) j xj d)))) by (intros z; rewrite !cnt_In; cnts; lia).
    apply EI. destruct (in_dec Z.eq_dec i (idx (plug c (N (N a k xk v) j xj d)))) as [Y|Y]; [exact Y|]. apply TI; [exact Hi|]. unfold used in *. rewrite (proj2 F i Y) in U. exact U.
  Qed.
  Lemma snug_rot_left (b : bst) (c : ctx) (a : bt) k xk (v : bt) j xj (d : bt) : snug b (plug c (N a j xj (N v k xk d))) -> exists b', rot left_rotate b (Some j) (Some k) = Ret b' /\ snug b' (plug c (N (N a j xj v) k xk d)) /\ keepsb b b'.
  Proof.
    intros [SP TI LA]. destruct (s_rot_left b c a k xk v j xj d SP) as (b' & E1 & SP' & K). exists b'. split; [exact E1|]. split; [|exact K]. unfold rot in E1. destruct (left_rotate_ok _ _ _ _ _ _ _ _ _ _ (sl_at _ _ SP)) as (m' & rt' & E2 & HT & F). rewrite E2 in E1. cbn [bind] in E1. injection E1 as <-.
    split; [exact SP'| |cbn [set_root set_mem b_arr b_mem a_last a_data]; rewrite (frame_len _ _ _ F); exact LA]. unfold b_mem in *. cbn [set_root set_mem b_arr a_last a_data] in *. intros i Hi U.
    assert (EI : forall z, In z (idx (plug c (N (N a j xj v) k xk d))) <-> In z (idx (plug c (N a j xj (N v k xk d))))) by (intros z; rewrite !cnt_In; cnts; lia).
    apply EI. destruct (in_dec Z.eq_dec i (idx (plug c (N a j xj (N v k xk d))))) as [Y|Y]; [exact Y|]. apply TI; [exact Hi|]. unfold used in *. rewrite (proj2 F i Y) in U. exact U.
  Qed.
  (** the loops that store sizes leave the empty cells empty *)
  Lemma while_pres {S R} (P : S -> Prop) (Q : R -> Prop) body : (forall s x, P s -> body s = Ret x -> match x with Next s' => P s' | Break r => Q r end) -> forall f s r, P s -> while_loop f body s = Ret r -> Q r.
  Proof. intros HB f. induction f as [|f IH]; intros s r HP; cbn [while_loop]; [discriminate|]. destruct (body s) as [[s'|r0]| |] eqn:EB; cbn [bind]; try discriminate; specialize (HB s _ HP EB); cbn beta iota in HB; [apply IH; exact HB|]. intros [= <-]. exact HB. Qed.
  Lemma tmod_used (t t' : mem) i f : tmod t i f = Ret t' -> len t' = len t /\ forall k, used t' k = used t k.
  Proof.
    unfold tmod. destruct i as [i|]; [|discriminate]. destruct (tget t (Some i)) as [n| |] eqn:Et; cbn [bind]; try discriminate. unfold tget in Et. destruct (aget t i) as [[n0|]| |] eqn:Ea; cbn [bind] in Et; try discriminate. injection Et as ->.
    assert (IB : inb t i). { unfold aget in Ea. unfold inb. destruct (Z.ltb_spec i 0), (Z.leb_spec (len t) i); cbn [orb] in Ea; try discriminate. lia. } rewrite aset_ok by exact IB. intros [= <-]. split; [apply len_zupd|]. intros k. unfold used. rewrite cell_zupd by exact IB. destruct (Z.eqb_spec k i) as [->|]; [|reflexivity]. unfold cell. rewrite Ea. reflexivity.
  Qed.
  Lemma update_size_used (b b' : bst) s : update_size b s = Ret b' -> a_last (b_arr b') = a_last (b_arr b) /\ len (b_mem b') = len (b_mem b) /\ forall k, used (b_mem b') k = used (b_mem b) k.
  Proof.
    unfold update_size. destruct (b_os b); [|intros [= <-]; auto]. match goal with |- context [while_loop ?f ?bd ?s0] => destruct (while_loop f bd s0) as [t| |] eqn:EW end; cbn [bind]; try discriminate. intros [= <-]. split; [reflexivity|]. unfold b_mem at 1 3. cbn [set_mem b_arr a_data].
    eapply (while_pres (fun st => len (fst st) = len (b_mem b) /\ forall k, used (fst st) k = used (b_mem b) k) (fun t => len t = len (b_mem b) /\ forall k, used t k = used (b_mem b) k)); [| |exact EW]; [|cbn [fst]; auto].
    intros [t0 walk] y [H1 H2]. cbn [fst] in *. destruct walk as [w|]; [|intros [= <-]; auto]. destruct (fix_size t0 (Some w)) as [t1| |] eqn:EF; cbn [bind]; try discriminate. destruct (tget t1 (Some w)) as [n| |]; cbn [bind]; try discriminate. intros [= <-]. cbn [fst].
    unfold fix_size in EF. destruct (tget t0 (Some w)) as [n1| |]; cbn [bind] in EF; try discriminate. destruct (left_size t0 n1) as [x1| |]; cbn [bind] in EF; try discriminate. destruct (right_size t0 n1) as [x2| |]; cbn [bind] in EF; try discriminate. apply tmod_used in EF as [F1 F2]. split; [congruence|]. intros k. rewrite F2. apply H2.
  Qed.
  Lemma nodup_map_in (f : Z -> Z) l : (forall i k, In i l -> In k l -> f i = f k -> i = k) -> NoDup l -> NoDup (map f l).
  Proof.
    intros HI ND. induction ND as [|a l NI ND IH]; [constructor|]. cbn [map]. constructor; [|apply IH; intros; apply HI; cbn; auto]. intros H. apply in_map_iff in H as (b & H1 & H2). apply NI. rewrite (HI a b); cbn; auto.
  Qed.
  Lemma count_idx (m : mem) (T : bt) last : NoDup (idx T) -> (forall i, In i (idx T) <-> 0 <= i <= last /\ used m i = true) -> 0 <= last + 1 -> sg m (last + 1) = nodes T.
  Proof.
    intros ND HI HL. rewrite nodes_len. unfold sg, len. f_equal. apply Nat.le_antisymm; apply NoDup_incl_length; try assumption; try (apply sg_filter; lia).
    - intros z Hz. apply filter_In in Hz as [A B]. apply zrange_in in A. apply HI. split; [lia|exact B].
    - intros z Hz. apply HI in Hz as [A B]. apply filter_In. split; [apply zrange_in; lia|exact B].
  Qed.
  Lemma same_index (T : bt) m rt c l i x r c2 l2 i2 x2 r2 : tree_at m rt T -> ordered (infos T) -> T = plug c (N l i x r) -> T = plug c2 (N l2 i2 x2 r2) -> k_key x = k_key x2 -> i = i2.
  Proof.
    intros HT HO E1 E2 EK. set (b := mkbst (mkaft m 0 0) rt 0 None false). destruct (ordered_here c l i x r ltac:(rewrite <- E1; exact HO)) as (k & Ek & _).
    destruct (search_at b c l i x r k eq_refl ltac:(rewrite <- E1; exact HT) ltac:(rewrite <- E1; exact HO) Ek) as [_ S1]. destruct (search_at b c2 l2 i2 x2 r2 k eq_refl ltac:(rewrite <- E2; exact HT) ltac:(rewrite <- E2; exact HO) ltac:(congruence)) as [_ S2]. congruence.
  Qed.
  (** the end of a delete that has unlinked cell j: the array may be renumbered *)
  Lemma drop_any (b : bst) T T' (m : mem) j n : snug b T -> tree_at m (b_root b) T' -> len m = len (b_mem b) -> (forall i, used m i = used (b_mem b) i) -> cell m j = Some n -> (forall i, In i (idx T) <-> i = j \/ In i (idx T')) -> ~ In j (idx T') -> nodes T' = nodes T - 1 -> ordered (infos T') -> T' <> E ->
    exists arr di, aft_delete (mkaft m (a_num (b_arr b)) (a_last (b_arr b))) (Some j) = Ret (arr, di) /\
      match di with
      | None => snug (set_arr b arr) T'
      | Some d => exists s, snug (set_root (set_arr b arr) (option_map s (b_root b))) (ren s T') /\ forall c l i x r, T' = plug c (N l i x r) -> odgetE d (k_key x) = Ret (s i)
      end.
  Proof.
    intros [SP TI LA] HT HL HU HC HI HN EN HO HE. assert (SN := sl_num _ _ SP). assert (SI := sl_idx _ _ SP). assert (JB : 0 <= j <= a_last (b_arr b)) by (apply SI, HI; auto).
    set (last' := if a_last (b_arr b) =? j then a_last (b_arr b) - 1 else a_last (b_arr b)). assert (IB : inb m j) by (eapply cell_inb; exact HC). set (m1 := zupd m j None).
    assert (E1 : aft_delete (mkaft m (a_num (b_arr b)) (a_last (b_arr b))) (Some j) = aft_modify (mkaft m1 (nodes T') last')).
    { unfold aft_delete. cbn [a_last a_data a_num]. replace ((j <=? a_last (b_arr b)) && (0 <=? j)) with true by lia. assert (EA : aget m j = Ret (Some n)). { unfold cell in HC. destruct (aget m j) as [[q|]| |]; congruence. } rewrite EA. cbn [bind]. rewrite aset_ok by exact IB. cbn [bind]. rewrite SN, <- EN. reflexivity. }
    rewrite E1. assert (F : frame m m1 [j]) by (apply upd_frame; exact IB). assert (U1 : forall i, used m1 i = if i =? j then false else used m i). { intros i. unfold used, m1. rewrite cell_zupd by exact IB. destruct (i =? j); reflexivity. }
    assert (HT1 : tree_at m1 (b_root b) T'). { destruct HT as (A & B & C). split; [|auto]. eapply frame_rep; [exact F| |exact A]. intros i Hi [<-|[]]. exact (HN Hi). }
    assert (LL : -1 <= last' < len m1). { unfold last', m1. rewrite len_zupd, HL. destruct (a_last (b_arr b) =? j); lia. }
    assert (ID : forall i, In i (idx T') <-> 0 <= i <= last' /\ used m1 i = true).
    { intros i. split.
      - intros Hi. assert (NJ : i <> j) by (intros ->; contradiction). assert (B := SI i ltac:(apply HI; auto)). split; [unfold last'; destruct (Z.eqb_spec (a_last (b_arr b)) j); lia|]. apply (rep_used _ _ _ (proj1 HT1) i Hi).
      - intros [B U]. rewrite U1 in U. destruct (Z.eqb_spec i j) as [->|NJ]; [discriminate|]. rewrite HU in U. assert (X : In i (idx T)) by (apply TI; [unfold last' in B; destruct (Z.eqb_spec (a_last (b_arr b)) j); lia|exact U]). apply HI in X as [->|X]; [contradiction|exact X]. }
    assert (CELL : forall i n0, 0 <= i <= last' -> cell m1 i = Some n0 -> exists c l x r, T' = plug c (N l i x r) /\ n0 = mknode x (root l) (root r) (cpar c)).
    { intros i n0 B Ci. assert (Hi : In i (idx T')) by (apply ID; split; [exact B|eapply cell_used; exact Ci]). apply In_plug in Hi as (c & l & x & r & ET). exists c, l, x, r. split; [exact ET|]. assert (HT2 := HT1). rewrite ET in HT2. apply sub_cell in HT2. congruence. }
    destruct (Z_lt_dec (4 * nodes T') (len m1)) as [CO|NC].
    - destruct (modify_ok (mkaft m1 (nodes T') last')) as (m' & d & E2 & Lm & HM); cbn [a_data a_num a_last]; [exact CO|exact LL|apply count_idx; [apply (proj1 (proj2 HT1))|exact ID|lia]| | |].
      + intros i k n1 n2 Bi Bk Ci Ck EK. destruct (CELL i n1 Bi Ci) as (c1 & l1 & x1 & r1 & X1 & ->). destruct (CELL k n2 Bk Ck) as (c2 & l2 & x2 & r2 & X2 & ->). eapply (same_index T' _ _ _ _ _ _ _ _ _ _ _ _ HT1 HO X1 X2). exact EK.
      + intros i n1 Bi Ci. destruct (CELL i n1 Bi Ci) as (c1 & l1 & x1 & r1 & X1 & ->). intros k Hk. cbn [n_left n_right n_parent] in Hk. apply ID. rewrite X1. rewrite cnt_In, cnt_plug. cbn [idx]. rewrite cnt_app, cnt_cons. destruct Hk as [Hk|[Hk|Hk]]; [apply root_In in Hk; rewrite cnt_In in Hk; lia..|].
        assert (Q : In k (cidx c1)) by (destruct c1 as [|c1 i0 x0 r0|c1 l0 i0 x0]; cbn [cpar] in Hk; [discriminate|..]; injection Hk as <-; cbn [cidx]; rewrite ?in_app_iff; cbn [In]; tauto). rewrite cnt_In in Q. lia.
      + cbn [a_data a_num a_last] in *. rewrite E2. exists (mkaft m' (nodes T') (nodes T' - 1)), (Some d). split; [reflexivity|]. exists (sg m1).
        assert (HR : tree_at m' (option_map (sg m1) (b_root b)) (ren (sg m1) T')).
        { destruct HT1 as (A & B & C). split; [|split].
          - apply (ren_rep _ m1 m' T' None); [|exact A]. intros i n1 Hi Ci. apply HM; [apply ID in Hi; tauto|exact Ci].
          - rewrite ren_idx. apply (nodup_map_in (sg m1)); [|exact B]. intros i k Hi Hk EQ. apply ID in Hi as [B1 U2]. apply ID in Hk as [B2 U3]. apply (sg_inj m1); try assumption; lia.
          - rewrite ren_root, C. reflexivity. }
        split; [split; [split| |]|].
        * exact HR.
        * cbn [set_root set_arr b_arr a_num]. rewrite ren_nodes. reflexivity.
        * cbn [set_root set_arr b_arr a_last]. intros i Hi. rewrite ren_idx in Hi. apply in_map_iff in Hi as (k & <- & Hk). apply ID in Hk as [B U]. pose proof (sg_nonneg m1 k). assert (Q := sg_lt m1 k (last' + 1) ltac:(lia) U). rewrite (count_idx m1 T' last' (proj1 (proj2 HT1)) ID) in Q by lia. lia.
        * cbn [set_root set_arr b_arr a_last b_mem a_data]. intros q Bq _. rewrite <- (count_idx m1 T' last' (proj1 (proj2 HT1)) ID) in Bq by lia. destruct (sg_onto m1 (last' + 1) q ltac:(lia) ltac:(lia)) as (i & B & U & ->). rewrite ren_idx. apply in_map. apply ID. split; [lia|exact U].
        * unfold b_mem. cbn [set_root set_arr b_arr a_last a_data]. rewrite Lm. pose proof (nodes_nonneg T'). lia.
        * intros c l i x r EQ. assert (HT2 := HT1). rewrite EQ in HT2. apply sub_cell in HT2. assert (Hi : In i (idx T')) by (eapply cnt_sub; exact EQ). apply ID in Hi as [B _]. apply (proj2 (HM i _ B HT2)).
    - unfold aft_modify. cbn [a_num a_data a_last]. replace (4 * nodes T' <? len m1) with false by lia. eexists. eexists. split; [reflexivity|]. split; [split| |]; unfold b_mem; cbn [set_arr b_arr b_root a_data a_num a_last].
      + exact HT1.
      + reflexivity.
      + intros i Hi. apply ID in Hi. tauto.
      + intros i B U. apply ID. auto.
      + apply LL.
  Qed.
  Lemma heap_ranked (T : bt) : forall lo, heap lo T -> ranked T.
  Proof. induction T as [|l IHl i x r IHr]; intros lo; cbn [heap]; [constructor|]. intros (p & A & B & C & F). apply ranked_N. split; [congruence|]. eauto. Qed.
  (** the node sinks until it is a leaf *)
  Lemma trickle_ok (b : bst) (c : ctx) (l : bt) s x (r : bt) : snug b (plug c (N l s x r)) -> ranked (plug c (N l s x r)) ->
    exists b' c', trickle_down b (Some s) = Ret b' /\ snug b' (plug c' (N E s x E)) /\ ents (plug c' (N E s x E)) = ents (plug c (N l s x r)) /\ ranked (plug c' (N E s x E)) /\ keepsb b b' /\
      (cheap c /\ heap (ctop c) l /\ heap (ctop c) r -> cheap c').
  Proof.
    intros G RK. unfold trickle_down. remember (ents (plug c (N l s x r))) as EN eqn:EEN. symmetry in EEN. remember (cheap c /\ heap (ctop c) l /\ heap (ctop c) r) as P eqn:EP.
    match goal with |- context [while_loop ?f ?bd ?s0] => assert (W : wp (while_loop f bd s0) (fun b' => exists c', snug b' (plug c' (N E s x E)) /\ ents (plug c' (N E s x E)) = EN /\ ranked (plug c' (N E s x E)) /\ keepsb b b' /\ (P -> cheap c'))) end.
    { eapply (wp_while_g (fun n b' => exists c l r, n = Z.to_nat (nodes (N l s x r)) /\ snug b' (plug c (N l s x r)) /\ keepsb b b' /\ ents (plug c (N l s x r)) = EN /\ ranked (plug c (N l s x r)) /\ (P -> cheap c /\ heap (ctop c) l /\ heap (ctop c) r))).
      - clear c l r G RK EEN EP. intros n b1 (c & l & r & -> & G & K & EN1 & RK & HP). rewrite (s_tget_at _ _ _ _ _ _ (sn_slim _ _ G)). cbn [bind n_left n_right].
        pose proof (nodes_nonneg l). pose proof (nodes_nonneg r).
        assert (RIGHT : forall a k xk v, l = N a k xk v -> (P -> heap (k_prio xk) r) -> wp (b2 <- rot right_rotate b1 (Some s) (Some k) ;; Ret (Next b2)) (fun r0 => match r0 with Next s' => exists n', (n' < Z.to_nat (nodes (N l s x r)))%nat /\ exists c l r, n' = Z.to_nat (nodes (N l s x r)) /\ snug s' (plug c (N l s x r)) /\ keepsb b s' /\ ents (plug c (N l s x r)) = EN /\ ranked (plug c (N l s x r)) /\ (P -> cheap c /\ heap (ctop c) l /\ heap (ctop c) r) | Break b' => exists c', snug b' (plug c' (N E s x E)) /\ ents (plug c' (N E s x E)) = EN /\ ranked (plug c' (N E s x E)) /\ keepsb b b' /\ (P -> cheap c') end)).
        { intros a k xk v -> HR. destruct (snug_rot_right b1 c a k xk v s x r G) as (b2 & E2 & G2 & K2). rewrite E2. cbn [bind wp]. pose proof (nodes_nonneg a). pose proof (nodes_nonneg v). exists (Z.to_nat (nodes (N v s x r))). split; [cbn [nodes] in *; lia|]. exists (CR c a k xk), v, r.
          split; [reflexivity|]. split; [exact G2|]. split; [eapply keepsb_trans; eassumption|]. split; [rewrite <- EN1; cbn [plug]; apply ents_plug; rewrite !ents_N, <- app_assoc; reflexivity|]. split; [cbn [plug]; rewrite ranked_plug, !ranked_N in *; tauto|].
          intros HPP. destruct (HP HPP) as (Q1 & (p & Q2 & Q3 & Q4 & Q5) & Q6). specialize (HR HPP). cbn [cheap ctop]. rewrite Q2 in *. eauto 10. }
        assert (LEFT : forall v k xk d, r = N v k xk d -> (P -> heap (k_prio xk) l) -> wp (b2 <- rot left_rotate b1 (Some s) (Some k) ;; Ret (Next b2)) (fun r0 => match r0 with Next s' => exists n', (n' < Z.to_nat (nodes (N l s x r)))%nat /\ exists c l r, n' = Z.to_nat (nodes (N l s x r)) /\ snug s' (plug c (N l s x r)) /\ keepsb b s' /\ ents (plug c (N l s x r)) = EN /\ ranked (plug c (N l s x r)) /\ (P -> cheap c /\ heap (ctop c) l /\ heap (ctop c) r) | Break b' => exists c', snug b' (plug c' (N E s x E)) /\ ents (plug c' (N E s x E)) = EN /\ ranked (plug c' (N E s x E)) /\ keepsb b b' /\ (P -> cheap c') end)).
        { intros v k xk d -> HR. destruct (snug_rot_left b1 c l k xk v s x d G) as (b2 & E2 & G2 & K2). rewrite E2. cbn [bind wp]. pose proof (nodes_nonneg d). pose proof (nodes_nonneg v). exists (Z.to_nat (nodes (N l s x v))). split; [cbn [nodes] in *; lia|]. exists (CL c k xk d), l, v.
          split; [reflexivity|]. split; [exact G2|]. split; [eapply keepsb_trans; eassumption|]. split; [rewrite <- EN1; cbn [plug]; apply ents_plug; rewrite !ents_N, <- app_assoc; reflexivity|]. split; [cbn [plug]; rewrite ranked_plug, !ranked_N in *; tauto|].
          intros HPP. destruct (HP HPP) as (Q1 & Q6 & (p & Q2 & Q3 & Q4 & Q5)). specialize (HR HPP). cbn [cheap ctop]. rewrite Q2 in *. eauto 10. }
        destruct l as [|a k xk v]; destruct r as [|v2 k2 xk2 d2]; cbn [root].
        + cbn [wp]. exists c. split; [exact G|]. split; [exact EN1|]. split; [exact RK|]. split; [exact K|]. intros HPP. apply HP, HPP.
        + apply (LEFT _ _ _ _ eq_refl). intros _. exact I.
        + apply (RIGHT _ _ _ _ eq_refl). intros _. exact I.
        + assert (TL : tget (b_mem b1) (Some k) = Ret (mknode xk (root a) (root v) (Some s))) by (apply (s_tget_at b1 (CL c s x (N v2 k2 xk2 d2))); exact (sn_slim _ _ G)).
          assert (TR : tget (b_mem b1) (Some k2) = Ret (mknode xk2 (root v2) (root d2) (Some s))) by (apply (s_tget_at b1 (CR c (N a k xk v) s x)); exact (sn_slim _ _ G)).
          rewrite TL. cbn [bind]. unfold n_prio. cbn [n_inf]. assert (RK' := RK). rewrite ranked_plug, !ranked_N in RK'. destruct RK' as (_ & (_ & (RL & _) & (RR & _)) & _). destruct (k_prio xk) as [lp|] eqn:Elp; [|congruence]. destruct (k_prio xk2) as [rp|] eqn:Erp; [|congruence]. cbn [bind]. rewrite TR. cbn [bind n_inf]. rewrite Erp. cbn [bind].
          destruct (Z.ltb_spec lp rp) as [L|L].
          * apply (RIGHT _ _ _ _ eq_refl). intros HPP. destruct (HP HPP) as (_ & _ & (p & H2 & H3 & H4 & H5)). rewrite Elp. cbn [heap]. exists p. split; [exact H2|]. split; [cbn [ole]; assert (p = rp) by congruence; lia|auto].
          * apply (LEFT _ _ _ _ eq_refl). intros HPP. destruct (HP HPP) as (_ & (p & H2 & H3 & H4 & H5) & _). rewrite Erp. cbn [heap]. exists p. split; [exact H2|]. split; [cbn [ole]; assert (p = lp) by congruence; lia|auto].
      - exists c, l, r. split; [reflexivity|]. split; [exact G|]. split; [apply keepsb_refl|]. split; [exact EEN|]. split; [exact RK|]. rewrite EP. auto.
      - assert (H := fuel_ok _ _ _ (sl_at _ _ (sn_slim _ _ G))). pose proof (nodes_plug_le c (N l s x r)). lia. }
    apply wp_ex in W as (b' & E1 & c' & H). exists b', c'. tauto.
  Qed.

  Definition alike (T T' : bt) : Prop := ents T' = ents T /\ nodes T' = nodes T /\ (ranked T -> ranked T') /\ forall lo, heap lo T -> heap lo T'.
  Lemma alike_sim (T T' : bt) : sim T T' -> alike T T'.
  Proof. intros SM. split; [symmetry; apply sim_facts; exact SM|]. split; [apply ents_nodes; symmetry; apply sim_facts; exact SM|]. split; [apply ranked_sim; exact SM|]. intros lo. apply heap_sim. exact SM. Qed.
  Lemma alike_ren f (T : bt) : alike T (ren f T).
  Proof. split; [unfold ents; rewrite ren_infos; reflexivity|]. split; [apply ren_nodes|]. split; [unfold ranked; rewrite ren_infos; auto|]. apply ren_heap. Qed.
  Lemma alike_trans (A B C : bt) : alike A B -> alike B C -> alike A C.
  Proof. intros (A1 & A2 & A3 & A4) (B1 & B2 & B3 & B4). split; [congruence|]. split; [congruence|]. auto. Qed.
  (** deleting a leaf *)
  Lemma delete_leaf (b : bst) c i x key : default b -> snug b (plug c (N E i x E)) -> ordered (infos (plug c (N E i x E))) -> k_key x = Some key -> c <> Top ->
    exists b' T', delete b key = Ret (b', true) /\ snug b' T' /\ alike (plug c E) T' /\ b_comp b' = b_comp b /\ b_os b' = b_os b.
  Proof.
    intros HD G HO Ek NT. assert (SP := sn_slim _ _ G). assert (HW := sl_at _ _ SP). assert (HC := sub_cell _ _ _ _ _ _ _ HW). destruct (search_at b c E i x E key HD HW HO Ek) as [ES _].
    unfold delete, delete_info. rewrite ES. cbn [bind]. rewrite (tget_ok _ _ _ HC). cbn [bind n_left n_right root].
    destruct (bypass_ok _ _ _ _ _ _ _ E HW NT I ltac:(intros z; cbn [idx]; rewrite cnt_nil; lia)) as (m1 & m2 & E1 & E2 & HT & L1 & _ & C1 & _). cbn [root] in E1, E2. injection E2 as <-.
    assert (CP := cpar_ne c NT). destruct CP as (jp & Ejp). assert (CC : exists c0 l0 x0 r0, plug c E = plug c0 (N l0 jp x0 r0)). { destruct c as [|c i0 x0 r0|c l0 i0 x0]; [congruence|..]; cbn [cpar] in Ejp; injection Ejp as ->; [exists c, E, x0, r0|exists c, l0, x0, E]; reflexivity. } destruct CC as (c0 & l0 & x0 & r0 & EP0).
    assert (Ep : tget m1 (Some jp) = Ret (mknode x0 (root l0) (root r0) (cpar c0))). { assert (H := HT). rewrite EP0 in H. apply tget_ok. apply (sub_cell _ _ _ _ _ _ _ H). }
    assert (RR : exists i1 l1 x1 r1, plug c E = plug Top (N l1 i1 x1 r1) /\ b_root b = Some i1 /\ tget m1 (b_root b) = Ret (mknode x1 (root l1) (root r1) None)). { assert (NE := plug_ne2 c E NT). assert (H := HT). destruct (plug c E) as [|l1 i1 x1 r1]; [congruence|]. exists i1, l1, x1, r1. assert (HR := proj2 (proj2 H)). cbn [root] in HR. split; [reflexivity|]. split; [exact HR|]. rewrite HR. apply tget_ok. apply (proj1 (proj1 H)). }
    destruct RR as (i1 & l1 & x1 & r1 & EP1 & ERT & Er). rewrite Ejp in *. rewrite relink_unfold in E1.
    destruct (tget (b_mem b) (Some jp)) as [pn| |] eqn:Epn; cbn [bind] in E1 |- *; try discriminate. rewrite E1. cbn [bind]. unfold b_mem. cbn [set_mem b_arr a_data b_root a_num a_last]. rewrite Ep, Er. cbn [bind]. unfold n_key. cbn [n_inf].
    assert (UU : forall k, used m1 k = used (b_mem b) k) by (destruct (oeqb (n_left pn) (Some i)); apply tmod_used in E1; tauto).
    assert (NDT := proj1 (proj2 HW)). assert (OT' : ordered (infos (plug c E))). { eapply (ordered_without key); [exact HO|]. apply (taken_ents _ _ _ _ _ _ _ key (t_left c E i x NT) Ek HO). }
    destruct (drop_any b _ (plug c E) m1 i _ G HT L1 UU ltac:(rewrite C1; exact HC)) as (arr & di & EA & HA).
    - intros k. rewrite !cnt_In, !cnt_plug. cbn [idx app]. rewrite cnt_cons, cnt_nil. destruct (Z.eqb_spec k i) as [Y|Y]; split; intros H; [left; congruence|lia|right; lia|destruct H as [H|H]; [congruence|lia]].
    - intros H. rewrite nodup_cnt in NDT. specialize (NDT i). rewrite cnt_In, cnt_plug in H. rewrite cnt_plug in NDT. cbn [idx app] in *. rewrite cnt_cons, Z.eqb_refl in NDT. rewrite cnt_nil in *. lia.
    - pose proof (nodes_plug c E (N E i x E)) as Q. cbn [nodes] in Q. lia.
    - exact OT'.
    - apply plug_ne2. exact NT.
    - rewrite EA. cbn [bind].
      assert (FIN : forall b1 c1, snug b1 (plug c1 E) -> b_comp b1 = b_comp b -> b_os b1 = b_os b -> alike (plug c E) (plug c1 E) ->
        exists b' T', (' (b, a) <- (b2 <- update_size b1 (cpar c1);; Ret (b2, Some (cpar c1)));; Ret (b, negb (is_none a))) = Ret (b', true) /\ snug b' T' /\ alike (plug c E) T' /\ b_comp b' = b_comp b /\ b_os b' = b_os b).
      { intros b1 c1 [S1 S2 S3] K1 K2 AL. destruct (s_update_size b1 c1 E S1) as (b2 & c2 & E3 & SP3 & CZ & K). rewrite E3. cbn [bind is_none negb]. destruct (update_size_used _ _ _ E3) as (U1 & U2 & U3). destruct K as (K3 & K4 & _). exists b2, (plug c2 E). assert (SM : sim (plug c1 E) (plug c2 E)) by (apply sim_plug; [apply cz_sim; exact CZ|apply sim_refl]).
        split; [reflexivity|]. split; [split; [exact SP3| |lia]|].
        - intros k Hk Uk. rewrite U3 in Uk. rewrite U1 in Hk. replace (idx (plug c2 E)) with (idx (plug c1 E)) by (apply (sim_facts _ _ SM)). apply S2; assumption.
        - split; [eapply alike_trans; [exact AL|apply alike_sim; exact SM]|]. split; congruence. }
      destruct di as [d|]; cbn [after_delete].
      + destruct HA as (s & G1 & HD1). rewrite (HD1 _ _ _ _ _ EP0). cbn [bind]. rewrite (HD1 _ _ _ _ _ EP1). cbn [bind]. rewrite ?set_arr_mem. rewrite ERT in G1. cbn [option_map] in G1. rewrite ren_plug in G1. cbn [ren] in G1.
        destruct (FIN (set_root (set_arr b arr) (Some (s i1))) (renc s c) G1 eq_refl eq_refl) as (b' & T' & X1 & X2); [|exists b', T'; split; [|exact X2]; rewrite ren_cpar, Ejp in X1; exact X1].
        assert (R := alike_ren s (plug c E)). rewrite ren_plug in R. exact R.
      + cbn [bind]. rewrite ?set_arr_mem. destruct (FIN (set_arr b arr) c HA eq_refl eq_refl) as (b' & T' & X1 & X2); [apply alike_sim, sim_refl|]. exists b', T'. split; [|exact X2]. rewrite Ejp in X1. exact X1.
  Qed.
  Lemma cart_delete_ok (b : bst) T key : default b -> snug b T -> ordered (infos T) -> T <> E -> ranked T -> without key (ents T) <> [] ->
    exists b' T' f, cart_delete b key = Ret (b', f) /\ (f = true <-> In (Some key) (map fst (ents T))) /\ snug b' T' /\ ents T' = without key (ents T) /\ T' <> E /\ ranked T' /\ b_comp b' = b_comp b /\ b_os b' = b_os b /\ (heap None T -> heap None T').
  Proof.
    intros HD G HO HE RK HN. destruct (search_ok b T key HD (sl_at _ _ (sn_slim _ _ G)) HO HE) as (c & S & ES & _ & HK). unfold cart_delete. rewrite ES. cbn [bind]. assert (HK' := HK). destruct HK as (ET & HP & [-> | (l & i & x & r & -> & Ek)]).
    - cbn [root]. assert (AB := absent key T c HK'). exists b, T, false. split; [reflexivity|]. split.
      + split; [discriminate|]. intros H. exfalso. unfold ents in H. rewrite map_map, in_map_iff in H. destruct H as (x & H1 & H2). rewrite Forall_forall in AB. specialize (AB x H2). unfold kis in AB. unfold ent in H1. cbn [fst] in H1. rewrite H1 in AB. congruence.
      + split; [exact G|]. split; [symmetry; unfold ents; apply without_none; exact AB|]. auto 10.
    - cbn [root]. subst T. destruct (trickle_ok b c l i x r G RK) as (b1 & c1 & E1 & G1 & EN1 & RK1 & K1 & HH). rewrite E1. cbn [bind]. destruct K1 as (K1 & K2 & _ & _).
      assert (O1 : ordered (infos (plug c1 (N E i x E)))) by (eapply ordered_ents; [symmetry; exact EN1|exact HO]). assert (D1 : default b1) by (unfold default in *; congruence).
      assert (NT : c1 <> Top). { intros ->. apply HN. rewrite <- EN1. cbn [plug]. unfold ents. cbn [infos app map]. unfold without, ent. cbn [filter fst]. rewrite Ek. cbn [oeqb]. rewrite Z.eqb_refl. reflexivity. }
      destruct (delete_leaf b1 c1 i x key D1 G1 O1 Ek NT) as (b2 & T2 & E2 & G2 & (A1 & A2 & A3 & A4) & K3 & K4). assert (ENT := taken_ents _ _ _ _ _ _ _ key (t_left c1 E i x NT) Ek O1). rewrite EN1 in ENT.
      exists b2, T2, true. split; [exact E2|]. split; [split; [intros _|reflexivity]|].
      + unfold ents. rewrite infos_plug. cbn [infos]. rewrite !map_app. cbn [map]. rewrite !in_app_iff. cbn [In]. unfold ent at 3. cbn [fst]. rewrite Ek. auto.
      + split; [exact G2|]. rewrite A1. split; [exact ENT|]. split; [apply (ents_ne (plug c1 E)); [congruence|apply plug_ne2; exact NT]|]. split; [apply A3; rewrite ranked_plug in *; cbn [infos] in *; unfold ranked in *; cbn [infos]; split; [|split; [constructor|]]; apply RK1|].
        split; [congruence|]. split; [congruence|]. intros H. apply A4. rewrite heap_plug in H |- *. destruct H as [H1 H2]. split; [|exact I]. apply HH. split; [exact H1|]. destruct H2 as (p & Q1 & Q2 & Q3 & Q4). split; eapply heap_mono; eassumption.
  Qed.
  Lemma deleted_nil ks : fst (deleted (@nil (Z * option D)) ks) = [].
  Proof. induction ks as [|k ks IH]; [reflexivity|]. cbn [deleted filter]. destruct (deleted [] ks). exact IH. Qed.
  Lemma cart_deletes_ok ks : forall (b : bst) T, default b -> snug b T -> ordered (infos T) -> T <> E -> ranked T -> fst (deleted (entries T) ks) <> [] ->
    exists b' T', delete_with cart_delete b ks = Ret (b', snd (deleted (entries T) ks)) /\ default b' /\ snug b' T' /\ ordered (infos T') /\ T' <> E /\ ranked T' /\ b_os b' = b_os b /\ entries T' = fst (deleted (entries T) ks) /\ (heap None T -> heap None T').
  Proof.
    induction ks as [|k ks IH]; intros b T HD G HO HE RK HN; cbn [delete_with deleted] in *; [exists b, T; cbn [fst snd]; auto 12|].
    assert (WN : without k (ents T) <> []). { rewrite ents_okeys, without_okeys by assumption. intros X. apply HN. apply map_eq_nil in X. rewrite X. pose proof (deleted_nil ks) as Q. destruct (deleted [] ks). exact Q. }
    destruct (cart_delete_ok b T k HD G HO HE RK WN) as (b1 & T1 & f & E1 & Hf & G1 & EE & HE1 & RK1 & HC & HOs & HH). rewrite E1. cbn [bind].
    assert (O1 : ordered (infos T1)) by (apply (ordered_without k (infos T)); assumption).
    assert (EN : entries T1 = filter (fun e => negb (fst e =? k)) (entries T)). { apply okeys_inj. rewrite <- ents_okeys, EE, ents_okeys, without_okeys by assumption. reflexivity. }
    rewrite <- EN in *. destruct (IH b1 T1 ltac:(unfold default in *; congruence) G1 O1 HE1 RK1) as (b2 & T2 & E2 & D2 & SP2 & O2 & HE2 & RK2 & OS2 & EN2 & HH2); [destruct (deleted (entries T1) ks); exact HN|]. rewrite E2. cbn [bind].
    destruct (deleted (entries T1) ks) as [l' fs]. cbn [fst snd] in *. exists b2, T2. split; [|split; [assumption|]; split; [assumption|]; split; [assumption|]; split; [assumption|]; split; [assumption|]; split; [congruence|]; auto].
    f_equal. f_equal. f_equal. rewrite ents_okeys, has_okeys in Hf by assumption. destruct f, (existsb (fun e => fst e =? k) (entries T)); try reflexivity; [symmetry; apply Hf; reflexivity|apply Hf; reflexivity].
  Qed.
End Del5.
