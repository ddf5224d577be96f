(** Proofs: SplayTree.split. *)
From Coq Require Import Sorting.Sorted Sorting.Permutation.
From Verif Require Import Base TreeModel TreeModel2 TreeModel3 TreeSpec TreeProofs TreeRotate TreeBst TreeTrav TreeQuery TreeLca TreeDel TreeHist TreeBalSpec TreeAvl TreeAvl2 TreeSim TreeTreap TreeSplay TreeReins TreeMulti TreeDel2 TreeDel3 TreeDel4 TreeCompact TreeDel5 TreeGap TreeSplaySpec.

Section Split.
  Context {D : Type}.
  Notation info := (info D). Notation node := (node D). Notation mem := (mem D). Notation bst := (bst D). Notation bt := (bt D). Notation ctx := (ctx D).
  (** preorder with cell numbers; the cells above a place *)
  Fixpoint prex (T : bt) : list (Z * info) := match T with E => [] | N l i x r => (i, x) :: prex l ++ prex r end.
  Fixpoint spine (c : ctx) : list Z := match c with Top => [] | CL c i _ _ | CR c _ i _ => i :: spine c end.
  Lemma prex_pre (T : bt) : map snd (prex T) = pre T.
  Proof. induction T as [|l IHl i x r IHr]; cbn [prex pre map snd]; [reflexivity|]. rewrite map_app, IHl, IHr. reflexivity. Qed.
  Lemma prex_idx (T : bt) : forall z, cnt z (map fst (prex T)) = cnt z (idx T).
  Proof. induction T as [|l IHl i x r IHr]; intros z; cbn [prex idx map fst]; [reflexivity|]. rewrite map_app, cnt_cons, !cnt_app, cnt_cons, IHl, IHr. lia. Qed.
  Lemma pre_perm (T : bt) : Permutation (pre T) (infos T).
  Proof. induction T as [|l IHl i x r IHr]; cbn [pre infos]; [constructor|]. etransitivity; [|apply Permutation_middle]. constructor. apply Permutation_app; assumption. Qed.
  Lemma pre_at (T : bt) : forall c0 A j y B, prex T = A ++ (j, y) :: B -> exists c l r, plug c0 T = plug c (N l j y r) /\ forall z, In z (spine c) -> In z (spine c0) \/ In z (map fst A).
  Proof.
    induction T as [|l IHl i x r IHr]; intros c0 A j y B EQ; cbn [prex] in EQ; [destruct A; discriminate|]. destruct A as [|a A]; cbn [app] in EQ.
    - injection EQ as -> -> _. exists c0, l, r. split; [reflexivity|]. auto.
    - injection EQ as <- EQ2. assert (CASES : (exists B1, prex l = A ++ (j, y) :: B1) \/ exists A2, A = prex l ++ A2 /\ prex r = A2 ++ (j, y) :: B).
      { clear - EQ2. revert EQ2. generalize (prex l) as L. revert A. intros A L. revert A. induction L as [|z L IH]; intros A H; cbn [app] in H; [right; exists A; auto|]. destruct A as [|a A]; cbn [app] in H.
        - injection H as -> H. left. exists L. reflexivity.
        - injection H as -> H. destruct (IH A H) as [(B1 & ->)|(A2 & -> & X)]; [left; exists B1; reflexivity|right; exists A2; auto]. }
      destruct CASES as [(B1 & X)|(A2 & -> & X)].
      + destruct (IHl (CL c0 i x r) _ _ _ _ X) as (c & l1 & r1 & E1 & H). cbn [plug] in E1. exists c, l1, r1. split; [exact E1|]. intros z Hz. destruct (H z Hz) as [[<-|H1]|H1]; cbn [map fst In]; auto.
      + destruct (IHr (CR c0 l i x) _ _ _ _ X) as (c & l1 & r1 & E1 & H). cbn [plug] in E1. exists c, l1, r1. split; [exact E1|]. intros z Hz. destruct (H z Hz) as [[<-|H1]|H1]; cbn [map fst In]; rewrite ?map_app, ?in_app_iff; auto.
  Qed.
  (** search reads only the nodes above the one it looks for *)
  Lemma reach_spine (b b' : bst) key c : forall S f, default b' -> tree_at (b_mem b) (b_root b) (plug c S) -> path_to key c -> (clen c <= f)%nat -> (forall z, In z (spine c) -> cell (b_mem b') z = cell (b_mem b) z) ->
    while_loop f (sbody b' key) (root (plug c S), None) = while_loop (f - clen c) (sbody b' key) (root S, cpar c).
  Proof.
    induction c as [|c IH i x r|c IH l i x]; intros S f HD HT HP HF HS; cbn [plug clen cpar spine In] in *.
    - rewrite Nat.sub_0_r. reflexivity.
    - assert (HP' : path_to key c /\ kis (fun k => key < k) x). { destruct HP as [P1 P2]. cbn [cl cr] in *. inversion P2 as [|? ? X1 X2]; subst. apply Forall_app in X2 as [_ X2]. split; [split; assumption|exact X1]. } destruct HP' as [HP' HX].
      rewrite (IH _ f HD HT HP' ltac:(lia)) by auto. destruct (f - clen c)%nat as [|g] eqn:Eg; [lia|]. replace (f - Datatypes.S (clen c))%nat with g by lia. cbn [while_loop sbody root]. assert (HC := sub_cell _ _ _ _ _ _ _ HT). rewrite <- HS in HC by auto. rewrite (tget_ok _ _ _ HC). cbn [bind n_left n_right]. unfold n_key. cbn [n_inf].
      unfold kis in HX. destruct (k_key x) as [k|]; [|destruct HX]. cbn [oeqb]. replace (k =? key) with false by lia. unfold comparator. rewrite HD. cbn [bind]. replace (key <? k) with true by lia. reflexivity.
    - assert (HP' : path_to key c /\ kis (fun k => k < key) x). { destruct HP as [P1 P2]. cbn [cl cr] in *. rewrite !Forall_app in P1. destruct P1 as (P1 & _ & P3). inversion P3; subst. split; [split; assumption|assumption]. } destruct HP' as [HP' HX].
      rewrite (IH _ f HD HT HP' ltac:(lia)) by auto. destruct (f - clen c)%nat as [|g] eqn:Eg; [lia|]. replace (f - Datatypes.S (clen c))%nat with g by lia. cbn [while_loop sbody root]. assert (HC := sub_cell _ _ _ _ _ _ _ HT). rewrite <- HS in HC by auto. rewrite (tget_ok _ _ _ HC). cbn [bind n_left n_right]. unfold n_key. cbn [n_inf].
      unfold kis in HX. destruct (k_key x) as [k|]; [|destruct HX]. cbn [oeqb]. replace (k =? key) with false by lia. unfold comparator. rewrite HD. cbn [bind]. replace (key <? k) with false by lia. reflexivity.
  Qed.
  Lemma search_spine (b b' : bst) c l i x r key : default b' -> b_root b' = b_root b -> len (b_mem b') = len (b_mem b) -> tree_at (b_mem b) (b_root b) (plug c (N l i x r)) -> ordered (infos (plug c (N l i x r))) -> k_key x = Some key ->
    (forall z, In z (i :: spine c) -> cell (b_mem b') z = cell (b_mem b) z) -> (forall z, b_root b = Some z -> cell (b_mem b') z = cell (b_mem b) z) -> search_parent b' key = Ret (Some i, cpar c).
  Proof.
    intros HD HR HL HT HO Ek HS HZ. assert (HF := clen_fuel _ _ _ _ _ _ _ HT). destruct (ordered_here _ _ _ _ _ HO) as (k & Ek' & _ & _ & F1 & F2). assert (k = key) by congruence. subst k. apply Forall_app in F1 as [F1 _]. apply Forall_app in F2 as [_ F2].
    assert (EF : fuel (b_mem b') = fuel (b_mem b)) by (unfold fuel, len in *; lia).
    assert (SL : search_loop b' key = Ret (Some i, cpar c)).
    { unfold search_loop. change (fun '(walk, parent) => match walk with None => Ret (Break (walk, parent)) | Some _ => _ end) with (sbody b' key). rewrite EF, HR, (proj2 (proj2 HT)), (reach_spine b b' key c (N l i x r) _ HD HT (conj F1 F2)); [|lia|intros z Hz; apply HS; right; exact Hz].
      destruct (fuel (b_mem b) - clen c)%nat as [|g] eqn:Eg; [lia|]. cbn [while_loop sbody root]. assert (HC := sub_cell _ _ _ _ _ _ _ HT). rewrite <- HS in HC by (left; reflexivity). rewrite (tget_ok _ _ _ HC). cbn [bind]. unfold n_key. cbn [n_inf]. rewrite Ek. cbn [oeqb]. rewrite Z.eqb_refl. reflexivity. }
    assert (NE := plug_ne c l i x r). destruct (plug c (N l i x r)) as [|l0 i0 x0 r0] eqn:EP; [congruence|]. assert (HC := sub_cell _ _ Top _ _ _ _ HT). destruct HT as (_ & _ & HRT). cbn [root] in HRT. destruct (ordered_here Top _ _ _ _ HO) as (k0 & Ek0 & _).
    unfold search_parent. rewrite HR, HRT. rewrite <- HZ in HC by exact HRT. rewrite (tget_ok _ _ _ HC). cbn [bind]. unfold n_key. cbn [n_inf]. rewrite Ek0, SL. auto.
  Qed.
  (** the state while the right subtree is cleared: the cells of [B] are empty, the others as before *)
  Record cleared (b b' : bst) (B : list Z) : Prop := {
    cd_def : b_comp b' = b_comp b; cd_os : b_os b' = b_os b; cd_root : b_root b' = b_root b; cd_size : b_size b' = b_size b; cd_num : a_num (b_arr b') = a_num (b_arr b); cd_last : a_last (b_arr b') = a_last (b_arr b);
    cd_len : len (b_mem b') = len (b_mem b); cd_cell : forall z, cell (b_mem b') z = if in_dec Z.eq_dec z B then None else cell (b_mem b) z }.
  Lemma cleared_refl b : cleared b b [].
  Proof. split; try reflexivity. Qed.
  Lemma clear_ok (b : bst) l i x r : default b -> tree_at (b_mem b) (b_root b) (N l i x r) -> ordered (infos (N l i x r)) -> forall A B b1, prex r = A ++ B -> cleared b b1 (map fst B) ->
    exists b2, clear_nodes b1 (map snd A) = Ret b2 /\ cleared b b2 (map fst (prex r)).
  Proof.
    intros HD HT HO. unfold clear_nodes. induction A as [|[j y] A IH] using rev_ind; intros B b1 EQ CL; cbn [map rev forM].
    - exists b1. split; [reflexivity|]. rewrite EQ. exact CL.
    - rewrite map_app, rev_app_distr. cbn [map rev app forM snd]. rewrite <- app_assoc in EQ. cbn [app] in EQ.
      destruct (pre_at r (CR Top l i x) A j y B EQ) as (c & l1 & r1 & E1 & HS). cbn [plug spine In] in *.
      assert (NDx : NoDup (i :: map fst (prex r))).
      { rewrite nodup_cnt. intros z. rewrite cnt_cons, prex_idx. assert (ND := proj1 (proj2 HT)). rewrite nodup_cnt in ND. specialize (ND z). cbn [idx] in ND. rewrite cnt_app, cnt_cons in ND. lia. }
      rewrite EQ in NDx. rewrite map_app in NDx. cbn [map fst] in NDx. apply NoDup_cons_iff in NDx as [NI NDx]. rewrite in_app_iff in NI. cbn [In] in NI.
      assert (NB : forall z, In z (map fst A) \/ z = i \/ z = j -> ~ In z (map fst B)).
      { intros z [Hz|[-> | ->]]; [|tauto|]; intros Hb.
        - apply in_split in Hz as (A1 & A2 & EA). rewrite EA in NDx. rewrite <- app_assoc in NDx. cbn [app] in NDx. apply NoDup_remove_2 in NDx. apply NDx. rewrite !in_app_iff. cbn [In]. tauto.
        - apply NoDup_remove_2 in NDx. apply NDx. rewrite in_app_iff. auto. }
      assert (KEEP : forall z, ~ In z (map fst B) -> cell (b_mem b1) z = cell (b_mem b) z). { intros z Hz. rewrite (cd_cell _ _ _ CL). destruct (in_dec Z.eq_dec z (map fst B)); [contradiction|reflexivity]. }
      rewrite E1 in HT, HO. assert (HO' := HO). destruct (ordered_here _ _ _ _ _ HO') as (k & Ek & _). unfold key_of. rewrite Ek. cbn [bind].
      rewrite (search_spine b b1 c l1 j y r1 k); [|unfold default in *; rewrite (cd_def _ _ _ CL); exact HD|apply CL|apply CL|exact HT|exact HO|exact Ek| |].
      + cbn [bind]. assert (IB : inb (b_mem b1) j). { eapply cell_inb. rewrite KEEP by auto. apply (sub_cell _ _ _ _ _ _ _ HT). } rewrite aset_ok by exact IB. cbn [bind]. eapply IH; [exact EQ|].
        destruct CL as [C1 C2 C3 C4 C5 C6 C7 C8]. split; unfold b_mem in *; cbn [set_mem b_comp b_os b_root b_size b_arr a_num a_last a_data map fst] in *; try assumption; [rewrite len_zupd; exact C7|]. intros z. rewrite cell_zupd by exact IB.
        destruct (Z.eqb_spec z j) as [->|NZ]; destruct (in_dec Z.eq_dec _ _) as [I1|I1]; [reflexivity|exfalso; apply I1; left; reflexivity| |].
        * destruct I1 as [I1|I1]; [congruence|]. rewrite C8. destruct (in_dec Z.eq_dec z (map fst B)); [reflexivity|contradiction].
        * rewrite C8. destruct (in_dec Z.eq_dec z (map fst B)) as [I2|I2]; [exfalso; apply I1; right; exact I2|reflexivity].
      + intros z [<-|Hz]; apply KEEP, NB; [auto|]. destruct (HS z Hz) as [[<-|[]]|H]; auto.
      + intros z Hz. apply KEEP, NB. right. left. destruct HT as (_ & _ & HR). rewrite <- E1 in HR. cbn [root] in HR. congruence.
  Qed.
  Lemma last_nodup (h : list (Z * option D)) : NoDup (map fst h) -> forall k d, last_data h k = Some d <-> In (k, d) h.
  Proof.
    induction h as [|[k1 d1] h IH]; intros ND k d; cbn [last_data In map fst] in *; [split; [discriminate|tauto]|]. apply NoDup_cons_iff in ND as [NI ND]. destruct (last_data h k) as [e|] eqn:EL.
    - apply (IH ND) in EL as HI. split.
      + intros [= <-]. auto.
      + intros [H|H]; [injection H as -> ->; exfalso; apply NI; apply in_map_iff; exists (k, e); auto|]. apply (IH ND) in H. congruence.
    - destruct (Z.eqb_spec k k1) as [->|NE]; split; intros H; [left; congruence| | |].
      + destruct H as [H|H]; [congruence|]. apply (IH ND) in H. congruence.
      + discriminate.
      + destruct H as [H|H]; [congruence|]. apply (IH ND) in H. congruence.
  Qed.
  Lemma entries_keys (l : list info) : ordered l -> forall k d, In (k, d) (map entry l) <-> In (Some k, d) (map ent l).
  Proof. intros HO k d. rewrite (proj2 (entries_ok l HO)), okeys_In. reflexivity. Qed.
  Lemma sorted_nodup (l : list Z) : StronglySorted Z.lt l -> NoDup l.
  Proof. induction 1 as [|a l _ IH F]; constructor; [|exact IH]. intros H. rewrite Forall_forall in F. specialize (F a H). lia. Qed.
  Lemma cont_entries (T : bt) : ordered (infos T) -> cont T (entries T).
  Proof. intros HO. split; [exact HO|]. intros k d. rewrite last_nodup; [|apply sorted_nodup, (entries_ok _ HO)]. unfold entries, ents. rewrite entries_keys by exact HO. reflexivity. Qed.
  (** what [split] inserts into the new tree *)
  Lemma insert_els (els : list info) : Forall (kis (fun _ => True)) els -> forall b : bst, forM els (fun el other => k <- key_of el ;; insert other k (k_data el)) b = insert_all b (map entry els).
  Proof.
    induction 1 as [|x els Hx _ IH]; intros b; cbn [forM map insert_all]; [reflexivity|]. unfold kis in Hx. unfold key_of, entry. destruct (k_key x) as [k|] eqn:Ek; [|destruct Hx]. cbn [bind]. destruct (insert b k (k_data x)) as [b'| |]; cbn [bind]; [apply IH|reflexivity|reflexivity].
  Qed.
  Definition splayed (b : bst) (l : list (Z * option D)) : Prop := exists T, default b /\ gapped b T /\ ordered (infos T) /\ T <> E /\ entries T = l.
  Lemma splayed_q b l : splayed b l <-> exists T, qgood b T l /\ entries T = l.
  Proof.
    split.
    - intros (T & A & B & C & F & G). exists T. split; [|exact G]. split; try assumption. rewrite <- G. apply cont_entries. exact C.
    - intros (T & [A B C F] & G). exists T. split; [exact A|]. split; [exact B|]. split; [apply C|]. auto.
  Qed.
  Lemma other_ok (r : bt) : ordered (infos r) -> r <> E -> exists b, forM (pre r) (fun el other => k <- key_of el ;; insert other k (k_data el)) (fresh false) = Ret b /\ splayed b (entries r).
  Proof.
    intros HO HE. assert (FK : Forall (kis (fun _ => True)) (pre r)). { apply (Permutation_Forall (Permutation_sym (pre_perm r))). apply HO. } rewrite insert_els by exact FK.
    destruct (build_ok (@None (Z * D)) false (map entry (pre r))) as (b & T & E1 & G & O). { cbn [started app]. destruct r; [congruence|discriminate]. }
    exists b. split; [exact E1|]. exists T. split; [apply G|]. split; [apply grown_gapped, G|]. split; [apply G|]. split; [apply G|].
    assert (SG := good_map _ _ _ G). cbn [started app] in SG. eapply sorted_map_unique; [exact SG|]. split; [apply (entries_ok _ HO)|].
    assert (PE : Permutation (map entry (pre r)) (entries r)) by (unfold entries; apply Permutation_map, pre_perm).
    intros k d. rewrite last_nodup; [|apply (Permutation_NoDup (Permutation_map fst (Permutation_sym PE))); apply sorted_nodup, (entries_ok _ HO)]. split; intros H; [apply (Permutation_in _ (Permutation_sym PE) H)|apply (Permutation_in _ PE H)].
  Qed.
  Lemma halves (l : bt) i x (r : bt) key : ordered (infos (N l i x r)) -> k_key x = Some key -> entries (N l i x E) = upto key (entries (N l i x r)) /\ entries r = above key (entries (N l i x r)).
  Proof.
    intros HO Ek. destruct (ordered_here Top _ _ _ _ HO) as (k & Ek' & _ & _ & F1 & F2). assert (k = key) by congruence. subst k. cbn [cl cr app] in *. rewrite app_nil_r in F2. unfold entries, upto, above. cbn [infos]. rewrite !map_app, !filter_app. cbn [map filter]. assert (EX : fst (entry x) = key) by (unfold entry; rewrite Ek; reflexivity). rewrite EX. replace (key <=? key) with true by lia. replace (key <? key) with false by lia.
    assert (A : filter (fun e => fst e <=? key) (map entry (infos l)) = map entry (infos l) /\ filter (fun e => key <? fst e) (map entry (infos l)) = []).
    { clear - F1. induction (infos l) as [|y L IH]; [auto|]. inversion F1 as [|? ? X1 X2]; subst. destruct (IH X2) as [I1 I2]. unfold kis in X1. cbn [map filter]. destruct (k_key y) as [z|] eqn:Ez; [|destruct X1]. assert (EY : fst (entry y) = z) by (unfold entry; rewrite Ez; reflexivity). rewrite EY. replace (z <=? key) with true by lia. replace (key <? z) with false by lia. rewrite I1, I2. auto. }
    assert (B : filter (fun e => fst e <=? key) (map entry (infos r)) = [] /\ filter (fun e => key <? fst e) (map entry (infos r)) = map entry (infos r)).
    { clear - F2. induction (infos r) as [|y L IH]; [auto|]. inversion F2 as [|? ? X1 X2]; subst. destruct (IH X2) as [I1 I2]. unfold kis in X1. cbn [map filter]. destruct (k_key y) as [z|] eqn:Ez; [|destruct X1]. assert (EY : fst (entry y) = z) by (unfold entry; rewrite Ez; reflexivity). rewrite EY. replace (z <=? key) with false by lia. replace (key <? z) with true by lia. rewrite I1, I2. auto. }
    destruct A as [-> ->], B as [-> ->]. cbn [app]. auto.
  Qed.
  Lemma split_absent (b : bst) l x : splayed b l -> ~ In x (map fst l) -> splay_split b x = Ret (b, None).
  Proof.
    intros (T & HD & G & HO & HE & EL) NI. destruct (search_ok b T x HD (q_at _ _ G) HO HE) as (c & S & _ & ES & HK). unfold splay_split. rewrite ES. cbn [bind]. destruct HK as (ET & _ & [-> | (l0 & i & y & r & -> & Ek)]); [reflexivity|]. exfalso. apply NI. rewrite <- EL, ET. unfold entries. rewrite infos_plug. cbn [infos]. rewrite !map_app, !in_app_iff. cbn [map In]. right. left. right. left. unfold entry. rewrite Ek. reflexivity.
  Qed.
  Lemma split_ok (b : bst) l x : splayed b l -> In x (map fst l) -> exists b' o, splay_split b x = Ret (b', Some o) /\ splayed b' (upto x l) /\ b_os b' = b_os b /\ (above x l = [] -> o = fresh false) /\ (above x l <> [] -> splayed o (above x l)).
  Proof.
    intros (T & HD & G & HO & HE & EL) HI. destruct (search_ok b T x HD (q_at _ _ G) HO HE) as (c & S & _ & ES & HK). unfold splay_split. rewrite ES. cbn [bind]. assert (HK' := HK). destruct HK as (ET & HP & [-> | (l0 & i & y & r0 & -> & Ek)]).
    { exfalso. assert (AB := absent x T c HK'). rewrite <- EL in HI. unfold entries in HI. rewrite map_map, in_map_iff in HI. destruct HI as (q & Q1 & Q2). rewrite Forall_forall in AB. specialize (AB q Q2). unfold kis in AB. unfold entry in Q1. cbn [fst] in Q1. destruct (k_key q); [congruence|exact AB]. }
    cbn [root]. subst T. destruct (q_splay_ok b c l0 i y r0 G) as (b1 & l1 & r1 & E1 & G1 & EN1 & K1). rewrite E1. cbn [bind bst_new]. destruct K1 as (K1 & K2 & K3 & K4).
    assert (O1 : ordered (infos (N l1 i y r1))) by (eapply ordered_ents; [symmetry; exact EN1|exact HO]). assert (D1 : default b1) by (unfold default in *; congruence).
    assert (ENT : entries (N l1 i y r1) = l). { rewrite <- EL. apply okeys_inj. rewrite <- !ents_okeys by assumption. exact EN1. }
    destruct (halves l1 i y r1 x O1 Ek) as [H1 H2]. rewrite ENT in H1, H2. assert (HT := q_at _ _ G1). assert (ERT : b_root b1 = Some i) by (apply HT). assert (HC := sub_cell _ _ Top _ _ _ _ HT). rewrite ERT, (tget_ok _ _ _ HC). cbn [bind n_right].
    destruct r1 as [|rl ri rx rr] eqn:Er1; cbn [root].
    - cbn [bind]. exists b1. eexists. split; [reflexivity|]. split; [exists (N l1 i y E); rewrite H1; split; [exact D1|]; split; [exact G1|]; split; [exact O1|]; split; [discriminate|reflexivity]|]. split; [exact K1|]. split; [reflexivity|]. intros X. rewrite <- H2 in X. cbn in X. congruence.
    - change (Some ri) with (root (N rl ri rx rr)). rewrite <- Er1 in *. assert (NE : r1 <> E) by (rewrite Er1; discriminate). assert (RI : root r1 = Some ri) by (rewrite Er1; reflexivity). clear Er1.
      assert (NDT := proj1 (proj2 HT)). destruct (proj1 HT) as (_ & RL & RR).
      assert (EP : pre_order (b_mem b1) (root r1) = Ret (pre r1)). { rewrite RI. eapply pre_order_ok; [exact RR| |exact RI]. rewrite nodup_cnt in *. intros z. specialize (NDT z). cbn [idx] in NDT. rewrite cnt_app, cnt_cons in NDT. lia. }
      rewrite RI in EP |- *. rewrite EP. cbn [bind].
      assert (OR : ordered (infos r1)). { cbn [infos] in O1. apply ordered_app in O1 as (_ & O1 & _). change (y :: infos r1) with ([y] ++ infos r1) in O1. apply ordered_app in O1. tauto. }
      destruct (other_ok r1 OR NE) as (o & EO & SO). change (Some _) with (Some (@with_isroot D true (new_info None None))) in EO || idtac. fold (fresh (D := D) false). change (mkbst (mkaft [Some (set_inf (with_isroot true) (new_node None None))] 1 0) (Some 0) 1 None false) with (fresh (D := D) false). rewrite EO. cbn [bind].
      destruct (clear_ok b1 l1 i y r1 D1 HT O1 (prex r1) [] b1 ltac:(rewrite app_nil_r; reflexivity) (cleared_refl b1)) as (b2 & E2 & CL). rewrite prex_pre in E2. rewrite E2. cbn [bind].
      assert (INR : forall z, In z (map fst (prex r1)) <-> In z (idx r1)) by (intros z; rewrite !cnt_In, prex_idx; reflexivity).
      assert (CUT : forall z, ~ In z (idx r1) -> cell (b_mem b2) z = cell (b_mem b1) z). { intros z Hz. rewrite (cd_cell _ _ _ CL). destruct (in_dec Z.eq_dec z (map fst (prex r1))) as [X|X]; [apply INR in X; contradiction|reflexivity]. }
      rewrite nodup_cnt in NDT. assert (NIi : ~ In i (idx r1)) by (intros X; dj NDT). assert (HC2 := HC). rewrite <- CUT in HC2 by exact NIi. cbn [cpar] in HC2.
      destruct (tmod_step (b_mem b2) i (set_right None) _ HC2) as (m3 & E3 & HC3 & F3). rewrite (cd_root _ _ _ CL), ERT, E3. cbn [bind set_right n_inf n_left n_parent] in *.
      exists (set_mem b2 m3), o. split; [reflexivity|]. split; [|split; [cbn [set_mem b_os]; rewrite (cd_os _ _ _ CL); exact K1|split; [intros X; exfalso; rewrite <- H2 in X; apply NE; destruct r1; [reflexivity|unfold entries in X; cbn [infos] in X; rewrite map_app in X; apply app_eq_nil in X as [_ X]; discriminate]|intros _; rewrite <- H2; exact SO]]].
      exists (N l1 i y E). split; [unfold default in *; cbn [set_mem b_comp]; rewrite (cd_def _ _ _ CL); exact D1|]. split; [|split; [|split; [discriminate|symmetry; symmetry; exact H1]]].
      + destruct G1 as [G1 G2 G3 G4 G5]. split; unfold b_mem in *; cbn [set_mem b_arr b_root b_size a_data a_num a_last].
        * split; [|split].
          -- cbn [rep root]. split; [exact HC3|]. split; [|exact I]. assert (FR : frame (a_data (b_arr b1)) m3 (i :: idx r1)).
             { split; [rewrite (proj1 F3); apply (cd_len _ _ _ CL)|]. intros z Hz. cbn [In] in Hz. rewrite (proj2 F3) by (cbn [In]; tauto). apply CUT. tauto. }
             eapply frame_rep; [exact FR| |exact RL]. intros z Hz [<-|Hz2]; dj NDT.
          -- apply nodup_cnt. intros z. specialize (NDT z). cbn [idx] in *. rewrite cnt_app, cnt_cons in *. rewrite cnt_nil. lia.
          -- cbn [root]. rewrite (cd_root _ _ _ CL). exact ERT.
        * rewrite (cd_num _ _ _ CL), (cd_size _ _ _ CL). exact G2.
        * rewrite (cd_last _ _ _ CL), (cd_size _ _ _ CL). exact G3.
        * rewrite (proj1 F3), (cd_size _ _ _ CL). change (a_data (b_arr b2)) with (b_mem b2). rewrite (cd_len _ _ _ CL). exact G4.
        * rewrite (cd_size _ _ _ CL). intros z Hz. apply G5. cbn [idx] in *. rewrite in_app_iff in *. cbn [In] in *. tauto.
      + cbn [infos] in *. change (y :: infos r1) with ([y] ++ infos r1) in O1. rewrite app_assoc in O1. apply ordered_app in O1. tauto.
  Qed.
End Split.
