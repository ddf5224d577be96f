(** Proofs: inserts and deletes on a BinarySearchTree in any order, while the array is not compacted and its last cell stays in use.
    The lemmas repeat those of TreeBst.v and TreeDel3.v for states with holes. *)
From Coq Require Import Sorting.Sorted.
From Verif Require Import Base TreeModel TreeModel2 TreeSpec TreeProofs TreeRotate TreeBst TreeTrav TreeQuery TreeLca TreeDel TreeHist TreeBalSpec TreeAvl TreeAvl2 TreeSim TreeTreap TreeSplay TreeReins TreeMulti TreeDel2 TreeDel3 TreeRbDel2 TreeHist2Spec.

Section Hist2.
  Context {D : Type}.
  Notation info := (info D). Notation node := (node D). Notation mem := (mem D). Notation bst := (bst D). Notation bt := (bt D). Notation ctx := (ctx D).
  (** a tree with holes in its array *)
  Record holed (b : bst) (T : bt) : Prop := {
    o_at : tree_at (b_mem b) (b_root b) T;
    o_num : a_num (b_arr b) = nodes T;
    o_last : a_last (b_arr b) = b_size b - 1;
    o_cap : b_size b <= len (b_mem b) <= 2 * b_size b - 1;
    o_idx : forall i, In i (idx T) -> 0 <= i < b_size b;
    o_half : b_size b <= 2 * nodes T }.
  Lemma holed_slim b T : holed b T -> slim b T.
  Proof. intros [A B C F G H]. split; [exact A|exact B|]. intros i Hi. apply G in Hi. lia. Qed.
  Lemma o_append (a : aft D) n s k : a_num a = k -> a_last a = s - 1 -> s <= len (a_data a) <= 2 * s - 1 -> s <= 2 * k ->
    exists a', aft_append a (Some n) = Ret a' /\ a_num a' = k + 1 /\ a_last a' = s /\ s + 1 <= len (a_data a') <= 2 * (s + 1) - 1 /\ cell (a_data a') s = Some n /\ forall i, i <> s -> cell (a_data a') i = cell (a_data a) i.
  Proof.
    intros E1 E2 HC HK. unfold aft_append. rewrite E1, E2. replace (s - 1 + 1) with s by lia.
    set (data := if s =? len (a_data a) then a_data a ++ repeat None (Z.to_nat (len (a_data a) + 1)) else a_data a).
    assert (LD : s + 1 <= len data <= 2 * (s + 1) - 1).
    { unfold data. destruct (Z.eqb_spec s (len (a_data a))); [unfold len in *; rewrite app_length, repeat_length; lia|lia]. }
    assert (CD : forall i, cell data i = cell (a_data a) i) by (intros i; unfold data; destruct (s =? len (a_data a)); [apply cell_app|reflexivity]).
    rewrite aset_ok by lia. cbn [bind]. unfold aft_modify. cbn [a_num a_data a_last]. rewrite len_zupd. destruct (Z.ltb_spec (4 * (k + 1)) (len data)); [lia|]. cbn [bind].
    eexists. split; [reflexivity|]. cbn [a_num a_data a_last]. rewrite len_zupd. split; [reflexivity|]. split; [reflexivity|]. split; [exact LD|].
    assert (inb data s) by (unfold inb; lia). split; [rewrite cell_zupd, Z.eqb_refl by assumption; reflexivity|]. intros i Hi. rewrite cell_zupd by assumption. apply Z.eqb_neq in Hi. rewrite Hi. apply CD.
  Qed.
  Lemma o_insert_pre b T key d c0 : default b -> holed b T -> ordered (infos T) -> T <> E -> at_key key T c0 E ->
    exists c b', at_key key T c E /\ c <> Top /\ insert b key d = update_size b' (Some (b_size b)) /\ holed b' (plug c (N E (b_size b) (new_info (Some key) d) E)) /\ b_comp b' = b_comp b /\ b_os b' = b_os b /\ b_size b' = b_size b + 1 /\ b_root b' = b_root b.
  Proof.
    intros HD G HO HE HA. assert (HT := o_at _ _ G). destruct (search_ok b T key HD HT HO HE) as (c1 & S1 & E1 & _ & K1).
    assert (AB := absent _ _ _ HA). assert (S1 = E). { destruct K1 as (ET & _ & [-> | (l & i & x & r & -> & Ek)]); [reflexivity|]. rewrite ET, infos_plug in AB. rewrite !Forall_app in AB. destruct AB as (_ & AB & _). cbn [infos] in AB. apply Forall_app in AB as [_ AB]. inversion AB as [|? ? AX _]; subst. unfold kis in AX. rewrite Ek in AX. congruence. }
    subst S1. cbn [root] in E1. unfold insert. rewrite E1. cbn [bind]. destruct (root_keyed b T HT HO HE) as (n0 & k0 & En & Ek0). rewrite En. cbn [bind]. rewrite Ek0.
    match goal with |- context [while_loop ?f ?bd ?s] => assert (W : wp (while_loop f bd s) (fun r => exists c b', at_key key T c E /\ c <> Top /\ snd r = Some (b_size b) /\ fst r = b' /\ tree_at (b_mem b') (b_root b) (plug c (N E (b_size b) (new_info (Some key) d) E)) /\ a_num (b_arr b') = nodes T + 1 /\ a_last (b_arr b') = b_size b /\ b_size b + 1 <= len (b_mem b') <= 2 * (b_size b + 1) - 1 /\ b_comp b' = b_comp b /\ b_os b' = b_os b /\ b_size b' = b_size b + 1 /\ b_root b' = b_root b)) end.
    { eapply (wp_while_g (fun n s => exists c l i x r, s = (Some i, Some i) /\ T = plug c (N l i x r) /\ path_to key c /\ n = Z.to_nat (nodes (N l i x r)))).
      - intros n s (c & l & i & x & r & -> & ET & HP & ->). rewrite ET in HT, HO, AB. assert (HC := sub_cell _ _ _ _ _ _ _ HT). rewrite (tget_ok _ _ _ HC). cbn [bind]. unfold n_key. cbn [n_inf n_left n_right].
        destruct (ordered_here _ _ _ _ _ HO) as (k & Ek & _ & _ & F1 & F2). rewrite Ek. unfold comparator. rewrite HD. cbn [bind].
        assert (NE : k <> key). { rewrite infos_plug, !Forall_app in AB. destruct AB as (_ & AB & _). cbn [infos] in AB. apply Forall_app in AB as [_ AB]. inversion AB as [|? ? AX _]; subst. unfold kis in AX. rewrite Ek in AX. exact AX. }
        assert (NI : ~ In (b_size b) (idx T)). { intros H. apply (o_idx _ _ G) in H. lia. }
        assert (NIi : i <> b_size b). { intros ->. apply NI. rewrite ET, cnt_In, cnt_plug. cbn [idx]. rewrite cnt_app, cnt_cons, Z.eqb_refl. lia. }
        pose proof (nodes_nonneg l). pose proof (nodes_nonneg r). destruct (Z.ltb_spec key k) as [L|L]; cbn [negb].
        + destruct l as [|ll li lx lr]; cbn [root].
          * destruct (o_append (b_arr b) (set_parent (Some i) (new_node (Some key) d)) (b_size b) (nodes T) (o_num _ _ G) (o_last _ _ G) (o_cap _ _ G) (o_half _ _ G)) as (a & Ea & A1 & A2 & A3 & A4 & A5). rewrite Ea. cbn [bind].
            assert (HCa : cell (a_data a) i = Some (mknode x None (root r) (cpar c))) by (rewrite A5 by exact NIi; exact HC).
            destruct (tmod_step (a_data a) i (set_left (Some (b_size b))) _ HCa) as (m2 & E2 & H2 & FR2). rewrite E2. cbn [bind]. rewrite (tget_ok _ _ _ H2). cbn [bind wp n_left set_left fst snd].
            exists (CL c i x r). eexists. split; [split; [exact ET|]; split; [eapply path_left; eassumption|left; reflexivity]|]. split; [discriminate|]. split; [reflexivity|]. split; [reflexivity|].
            cbn [b_mem set_bsize set_mem set_arr b_arr a_data a_num a_last b_comp b_os b_size b_root]. split; [|rewrite (proj1 FR2); auto 10].
            cbn [plug]. eapply (link_left (b_mem b)); [exact HT|rewrite <- ET; exact NI| |exact H2|].
            -- rewrite (proj2 FR2) by (intros [X|[]]; congruence). exact A4.
            -- intros z Z1 Z2. rewrite (proj2 FR2) by (intros [X|[]]; congruence). apply A5. exact Z1.
          * cbn [wp]. eexists. split; [|exists (CL c i x r), ll, li, lx, lr; split; [reflexivity|]; split; [exact ET|]; split; [eapply path_left; eassumption|reflexivity]]. cbn [nodes] in *. pose proof (nodes_nonneg ll). pose proof (nodes_nonneg lr). lia.
        + destruct r as [|rl ri rx rr]; cbn [root].
          * destruct (o_append (b_arr b) (set_parent (Some i) (new_node (Some key) d)) (b_size b) (nodes T) (o_num _ _ G) (o_last _ _ G) (o_cap _ _ G) (o_half _ _ G)) as (a & Ea & A1 & A2 & A3 & A4 & A5). rewrite Ea. cbn [bind].
            assert (HCa : cell (a_data a) i = Some (mknode x (root l) None (cpar c))) by (rewrite A5 by exact NIi; exact HC).
            destruct (tmod_step (a_data a) i (set_right (Some (b_size b))) _ HCa) as (m2 & E2 & H2 & FR2). rewrite E2. cbn [bind]. rewrite (tget_ok _ _ _ H2). cbn [bind wp n_right set_right fst snd].
            exists (CR c l i x). eexists. split; [split; [exact ET|]; split; [eapply path_right; try eassumption; lia|left; reflexivity]|]. split; [discriminate|]. split; [reflexivity|]. split; [reflexivity|].
            cbn [b_mem set_bsize set_mem set_arr b_arr a_data a_num a_last b_comp b_os b_size b_root]. split; [|rewrite (proj1 FR2); auto 10].
            cbn [plug]. eapply (link_right (b_mem b)); [exact HT|rewrite <- ET; exact NI| |exact H2|].
            -- rewrite (proj2 FR2) by (intros [X|[]]; congruence). exact A4.
            -- intros z Z1 Z2. rewrite (proj2 FR2) by (intros [X|[]]; congruence). apply A5. exact Z1.
          * cbn [wp]. eexists. split; [|exists (CR c l i x), rl, ri, rx, rr; split; [reflexivity|]; split; [exact ET|]; split; [eapply path_right; try eassumption; lia|reflexivity]]. cbn [nodes] in *. pose proof (nodes_nonneg rl). pose proof (nodes_nonneg rr). lia.
      - destruct (root_cell _ _ _ HT HE) as (l & i & x & r & -> & -> & _). exists Top, l, i, x, r. split; [reflexivity|]. split; [reflexivity|]. split; [split; constructor|reflexivity].
      - apply (fuel_ok _ _ _ HT). }
    apply wp_ex in W as ([b1 w] & EW & c & b' & K & NT & Ew & Eb & HT1 & N1 & N2 & N3 & N4 & N5 & N6 & N7). cbn [fst snd] in Ew, Eb. subst w b1. rewrite EW. cbn [bind].
    assert (ETc := proj1 K).
    assert (GI : forall z, In z (idx (addleaf false c (b_size b) (new_info (Some key) d))) -> 0 <= z < b_size b + 1).
    { intros z Hz. rewrite cnt_In, idx_addleaf, <- ETc in Hz. destruct (Z.eqb_spec z (b_size b)) as [Ez|NE].
      - pose proof (o_cap _ _ G). lia.
      - assert (In z (idx T)) as HI by (apply cnt_In; lia). apply (o_idx _ _ G) in HI. lia. }
    assert (GN : nodes (plug c (N E (b_size b) (new_info (Some key) d) E)) = nodes T + 1) by (rewrite ETc; apply (nodes_addleaf false c (b_size b) (new_info (Some key) d))).
    assert (GH := o_half _ _ G). exists c, b'. split; [exact K|]. split; [exact NT|]. split; [reflexivity|]. split; [|auto].
    constructor; rewrite ?N6; rewrite ?N7; try assumption; try lia.
  Qed.

  (** ** delete *)
  Definition last_after (b : bst) (j : Z) : Z := if a_last (b_arr b) =? j then a_last (b_arr b) - 1 else a_last (b_arr b).
  Definition exact_tail (b b' : bst) (c1 : ctx) (S : bt) (c' : ctx) (j : Z) : Prop :=
    len (b_mem b') = len (b_mem b) /\ b_comp b' = b_comp b /\ b_os b' = b_os b /\ b_size b' = b_size b /\ a_last (b_arr b') = last_after b j /\ (b_os b = true -> csized c1 -> sized S -> sized (plug c' S)).
  Lemma o_drop_ok (b : bst) (T T' : bt) (m : mem) j n : slim b T -> tree_at m (b_root b) T' -> len m = len (b_mem b) -> cell m j = Some n -> In j (idx T) -> ~ In j (idx T') -> (forall i, In i (idx T') -> In i (idx T)) -> nodes T' = nodes T - 1 ->
    len (b_mem b) <= 4 * (nodes T - 1) ->
    exists arr, aft_delete (mkaft m (a_num (b_arr b)) (a_last (b_arr b))) (Some j) = Ret (arr, None) /\ slim (set_arr b arr) T' /\ len (a_data arr) = len (b_mem b) /\ a_last arr = last_after b j.
  Proof.
    intros SP HW HL HC HJ HN HI EN HF. destruct (s_drop_ok b T T' m j n SP HW HL HC HJ HN HI EN HF) as (arr & E1 & SP1 & L1). exists arr. split; [exact E1|]. split; [exact SP1|]. split; [exact L1|].
    destruct (s_aft_delete (mkaft m (a_num (b_arr b)) (a_last (b_arr b))) j n HC) as (m' & E2 & _); cbn [a_data a_num a_last] in *; [apply (sl_idx _ _ SP); exact HJ|rewrite HL, (sl_num _ _ SP); exact HF|]. rewrite E1 in E2. injection E2 as ->. reflexivity.
  Qed.
  Lemma last_update_size (b : bst) i b' : update_size b i = Ret b' -> a_last (b_arr b') = a_last (b_arr b).
  Proof. unfold update_size. destruct (b_os b); [|intros [= <-]; reflexivity]. destruct (while_loop _ _ _); cbn [bind]; intros H; [|discriminate..]. injection H as <-. reflexivity. Qed.
  (** from the state m in which node j is bypassed to the end of the call *)
  Lemma o_finish (b : bst) T c1 S (m : mem) j n : slim b T -> tree_at m (b_root b) (plug c1 S) -> c1 <> Top -> len m = len (b_mem b) -> cell m j = Some n -> In j (idx T) -> ~ In j (idx (plug c1 S)) -> (forall i, In i (idx (plug c1 S)) -> In i (idx T)) -> nodes (plug c1 S) = nodes T - 1 -> len (b_mem b) <= 4 * (nodes T - 1) ->
    exists np nr arr b' c', tget m (cpar c1) = Ret np /\ tget m (b_root b) = Ret nr /\ aft_delete (mkaft m (a_num (b_arr b)) (a_last (b_arr b))) (Some j) = Ret (arr, None) /\ update_size (set_arr b arr) (cpar c1) = Ret b' /\ cpar c' = cpar c1 /\
      cz c1 c' /\ slim b' (plug c' S) /\ exact_tail b b' c1 S c' j.
  Proof.
    intros SP HT NT HL HC HJ HN HI EN HF. destruct (tget_par _ _ _ _ HT NT) as (np & Ep). destruct (tget_root _ _ _ HT (plug_ne2 _ _ NT)) as (nr & Er).
    destruct (o_drop_ok b T (plug c1 S) m j n SP HT HL HC HJ HN HI EN HF) as (arr & E1 & SP1 & L1 & L2). destruct (s_update_size _ _ _ SP1) as (b' & c' & E2 & SP2 & CZ & K).
    exists np, nr, arr, b', c'. do 4 (split; [assumption|]). split; [symmetry; apply (csim_facts _ _ (cz_sim _ _ CZ))|]. do 2 (split; [assumption|]). destruct K as (K1 & K2 & K3 & K4). split; [rewrite K4; exact L1|]. split; [exact K2|]. split; [exact K1|]. split; [exact K3|]. split; [rewrite (last_update_size _ _ _ E2); exact L2|].
    intros HO SC SS. assert (HT1 := sl_at _ _ SP1). destruct c1 as [|c1 i x r|c1 l i x]; [congruence|..]; cbn [plug cpar csized] in *.
    - destruct (update_size_ok (set_arr b arr) c1 S i x r HT1 SS (proj1 SC) (proj2 SC) HO) as (m' & E3 & HT3 & _). rewrite E2 in E3. injection E3 as ->. assert (X := tree_unique _ _ _ _ (sl_at _ _ SP2) HT3). rewrite X. apply sized_up; [|apply SC]. cbn [sized fits with_size k_size]. tauto.
    - destruct (update_size_ok (set_arr b arr) c1 l i x S HT1 (proj1 SC) SS (proj2 SC) HO) as (m' & E3 & HT3 & _). rewrite E2 in E3. injection E3 as ->. assert (X := tree_unique _ _ _ _ (sl_at _ _ SP2) HT3). rewrite X. apply sized_up; [|apply SC]. cbn [sized fits with_size k_size]. tauto.
  Qed.
  (** which cell is emptied *)
  Definition gone (c : ctx) (l : bt) (i : Z) (x : info) (r : bt) (c1 : ctx) (S : bt) (j : Z) : Prop :=
    (c <> Top /\ j = i /\ c1 = c /\ (S = l /\ r = E \/ S = r /\ l = E)) \/
    (l <> E /\ exists fs y, r = plugl fs (N E j y S) /\ c1 = clefts (CR c l i (moved y x)) fs).
  Lemma o_delete_strong (b : bst) T key c l i x r : default b -> slim b T -> len (b_mem b) <= 4 * (nodes T - 1) -> search_parent b key = Ret (Some i, cpar c) -> T = plug c (N l i x r) ->
    (c = Top -> l <> E /\ r <> E) ->
    exists b' c1 S c' j, delete_info b key = Ret (b', Some (cpar c')) /\ taken c l i x r c1 S /\ cz c1 c' /\ slim b' (plug c' S) /\ exact_tail b b' c1 S c' j /\ gone c l i x r c1 S j.
  Proof.
    intros HD SP HL ES ET HO1. assert (HW := sl_at _ _ SP). rewrite ET in HW. assert (HC := sub_cell _ _ _ _ _ _ _ HW).
    unfold delete_info. rewrite ES. cbn [bind]. rewrite (tget_ok _ _ _ HC). cbn [bind n_left n_right].
    assert (NDT := proj1 (proj2 HW)). assert (HWR := proj1 HW). apply rep_plug in HWR as (HCR & _ & HL' & HR'). assert (NDc := NDT). rewrite nodup_cnt in NDc.
    (* one subtree S, the other one empty, and a parent *)
    assert (BYP : forall S, c <> Top -> (S = l /\ r = E \/ S = r /\ l = E) ->
      exists m1 m2 np nr arr b' c', relink (b_mem b) (cpar c) (Some i) (root S) = Ret m1 /\ (match root S with Some _ => tmod m1 (root S) (set_parent (cpar c)) | None => Ret m1 end) = Ret m2 /\
        tget m2 (cpar c) = Ret np /\ tget m2 (b_root b) = Ret nr /\ aft_delete (mkaft m2 (a_num (b_arr b)) (a_last (b_arr b))) (Some i) = Ret (arr, None) /\ update_size (set_arr b arr) (cpar c) = Ret b' /\ cpar c' = cpar c /\
        taken c l i x r c S /\ cz c c' /\ slim b' (plug c' S) /\ exact_tail b b' c S c' i).
    { intros S NT HS. assert (HCS : forall z, cnt z (idx S) = (cnt z (idx l) + cnt z (idx r))%nat) by (intros z; destruct HS as [[-> ->]|[-> ->]]; cbn [idx]; rewrite cnt_nil; lia).
      assert (HSR : rep (b_mem b) S (Some i)) by (destruct HS as [[-> _]|[-> _]]; assumption).
      destruct (bypass_ok _ _ _ _ _ _ _ S HW NT HSR HCS) as (m1 & m2 & E1 & E2 & HT & L1 & L2 & C1 & C2).
      destruct (bypass_idx c l i x r S NDT) as [NI II]; [intros z; rewrite HCS; lia|].
      assert (TK : taken c l i x r c S) by (destruct HS as [[-> ->]|[-> ->]]; constructor; exact NT).
      destruct (o_finish b T c S m2 i (mknode x (root l) (root r) (cpar c)) SP HT NT L2) as (np & nr & arr & b' & c' & X1 & X2 & X3 & X4 & X5 & X6 & X7 & X8).
      - rewrite C2. exact HC.
      - rewrite ET. apply (cnt_sub _ _ _ _ _ _ eq_refl).
      - exact NI.
      - rewrite ET. exact II.
      - rewrite ET. apply (taken_nodes _ _ _ _ _ _ _ TK).
      - exact HL.
      - exists m1, m2, np, nr, arr, b', c'. auto 20. }
    assert (TD : c = Top \/ c <> Top) by (destruct c; [left; reflexivity|right; discriminate..]).
    destruct l as [|ll li lx lr] eqn:El; destruct r as [|rl ri rx rr] eqn:Er; cbn [root].
    - (* a leaf *) destruct TD as [->|NT]; [exfalso; destruct (HO1 eq_refl); congruence|]. destruct (BYP E NT) as (m1 & m2 & np & nr & arr & b' & c' & E1 & E2 & X1 & X2 & X3 & X4 & X5 & X6 & X7 & X8 & X9); [left; auto|].
      cbn [root] in *. injection E2 as <-. destruct (cpar_ne c NT) as (jp & Ejp). rewrite Ejp in *. rewrite relink_unfold in E1. destruct (tget (b_mem b) (Some jp)) as [pn| |] eqn:Epn; cbn [bind] in E1 |- *; try discriminate. rewrite E1. cbn [bind set_mem b_mem b_arr a_data b_root a_num a_last]. rewrite X1, X2. cbn [bind]. rewrite X3. cbn [bind after_delete].
      rewrite ?set_arr_mem. rewrite X4. cbn [bind]. exists b', c, E, c', i. rewrite X5. do 5 (split; [auto|]). left. auto 10.
    - (* right child only *) destruct TD as [->|NT].
      + exfalso. destruct (HO1 eq_refl). congruence.
      + destruct (BYP (N rl ri rx rr) NT) as (m1 & m2 & np & nr & arr & b' & c' & E1 & E2 & X1 & X2 & X3 & X4 & X5 & X6 & X7 & X8 & X9); [right; auto|].
        cbn [root] in *. destruct (cpar_ne c NT) as (jp & Ejp). rewrite Ejp in *. rewrite relink_unfold in E1. destruct (tget (b_mem b) (Some jp)) as [pn| |] eqn:Epn; cbn [bind] in E1 |- *; try discriminate. rewrite E1. cbn [bind]. rewrite E2. cbn [bind set_mem b_mem b_arr a_data b_root a_num a_last]. rewrite X1, X2. cbn [bind]. rewrite X3. cbn [bind].
        rewrite ?set_arr_mem. rewrite X4. cbn [bind]. exists b', c, (N rl ri rx rr), c', i. rewrite X5. do 5 (split; [auto|]). left. auto 10.
    - (* left child only *) destruct TD as [->|NT].
      + exfalso. destruct (HO1 eq_refl). congruence.
      + destruct (BYP (N ll li lx lr) NT) as (m1 & m2 & np & nr & arr & b' & c' & E1 & E2 & X1 & X2 & X3 & X4 & X5 & X6 & X7 & X8 & X9); [left; auto|].
        cbn [root] in *. destruct (cpar_ne c NT) as (jp & Ejp). rewrite Ejp in *. rewrite relink_unfold in E1. destruct (tget (b_mem b) (Some jp)) as [pn| |] eqn:Epn; cbn [bind] in E1 |- *; try discriminate. rewrite E1. cbn [bind]. rewrite E2. cbn [bind set_mem b_mem b_arr a_data b_root a_num a_last]. rewrite X1, X2. cbn [bind]. rewrite X3. cbn [bind].
        rewrite ?set_arr_mem. rewrite X4. cbn [bind]. exists b', c, (N ll li lx lr), c', i. rewrite X5. do 5 (split; [auto|]). left. auto 10.
    - (* two children *) clear BYP HO1. rewrite <- El, <- Er in *. assert (NL : l <> E) by (rewrite El; discriminate). assert (NR : r <> E) by (rewrite Er; discriminate). assert (Eli : root l = Some li) by (rewrite El; reflexivity). change (Some ri) with (root (N rl ri rx rr)). rewrite <- Er. clear El Er.
      match goal with |- context [bind (while_loop ?f ?bd ?st0) _] => assert (W : wp (while_loop f bd st0) (fun o => exists fs j y s, r = plugl fs (N E j y s) /\ o = (Some j, cpar (clefts (CR c l i x) fs), negb (match fs with [] => true | _ => false end)))) end.
      { eapply (wp_while_g (fun n st => exists fs S, r = plugl fs S /\ S <> E /\ st = (root S, cpar (clefts (CR c l i x) fs), negb (match fs with [] => true | _ => false end)) /\ n = Z.to_nat (nodes S))).
        - intros n st (fs & S & Er & SE & -> & ->). destruct S as [|a j y s]; [congruence|]. assert (EF : plug c (N l i x r) = plug (clefts (CR c l i x) fs) (N a j y s)) by (rewrite Er, plug_clefts; reflexivity).
          assert (HW2 := HW). rewrite EF in HW2. cbn [root]. rewrite (tget_ok _ _ _ (sub_cell _ _ _ _ _ _ _ HW2)). cbn [bind n_left]. destruct a as [|al ai ax ar]; cbn [root].
          + cbn [wp]. exists fs, j, y, s. auto.
          + cbn [wp]. eexists. split; [|exists ((j, y, s) :: fs), (N al ai ax ar); split; [exact Er|]; split; [discriminate|]; split; [reflexivity|reflexivity]]. pose proof (nodes_nonneg al). pose proof (nodes_nonneg ar). pose proof (nodes_nonneg s). cbn [nodes]. lia.
        - exists [], r. split; [reflexivity|]. split; [exact NR|]. auto.
        - assert (H := fuel_ok _ _ _ HW). pose proof (nodes_plug_le c (N l i x r)). cbn [nodes] in *. pose proof (nodes_nonneg l). pose proof (nodes_nonneg r). lia. }
      apply wp_ex in W as (o & EW & fs & j & y & s & Er & ->). rewrite EW. cbn [bind].
      assert (EF : forall x0, plug c (N l i x0 r) = plug (clefts (CR c l i x0) fs) (N E j y s)) by (intros x0; rewrite Er, plug_clefts; reflexivity).
      assert (HW2 := HW). rewrite EF in HW2. rewrite (tget_ok _ _ _ (sub_cell _ _ _ _ _ _ _ HW2)). cbn [bind]. unfold n_key. cbn [n_inf].
      assert (EM : tmod (b_mem b) (Some i) (fun m => set_inf (with_key (k_key y)) (set_inf (with_data (k_data y)) m)) = tmod (b_mem b) (Some i) (set_inf (fun _ => moved y x))).
      { unfold tmod. rewrite (tget_ok _ _ _ HC). reflexivity. }
      rewrite EM. destruct (set_info_ok _ _ _ _ _ _ _ (moved y x) HW) as (m1 & E1 & HW1 & F1). rewrite E1. cbn [bind].
      rewrite EF in HW1. set (c2 := clefts (CR c l i (moved y x)) fs) in *. assert (NT : c2 <> Top) by (apply clefts_top; discriminate). assert (HCj := sub_cell _ _ _ _ _ _ _ HW1). rewrite (tget_ok _ _ _ HCj). cbn [bind n_right].
      assert (HWs := proj1 HW1). apply rep_plug in HWs as (HCR2 & _ & _ & HWs). assert (ND1 := proj1 (proj2 HW1)).
      destruct (bypass_ok _ _ _ _ _ _ _ s HW1 NT HWs ltac:(intros z; cbn [idx]; rewrite cnt_nil; lia)) as (m2 & m3 & E2 & E3 & HW3 & L2 & L3 & C2 & C3).
      assert (EPAR : cpar (clefts (CR c l i x) fs) = cpar c2) by (unfold c2; destruct fs as [|[[? ?] ?] ?]; reflexivity). rewrite EPAR.
      assert (FLG : (if negb (match fs with [] => true | _ => false end) then tmod m1 (cpar c2) (set_left (root s)) else tmod m1 (cpar c2) (set_right (root s))) = Ret m2).
      { rewrite <- E2, relink_unfold. destruct fs as [|[[fi fx] fr] fs']; cbn [negb].
        - unfold c2 in *. cbn [clefts cpar crep] in *. destruct HCR2 as (A & _). rewrite (tget_ok _ _ _ A). cbn [bind n_left]. rewrite Eli. cbn [oeqb]. replace (li =? j) with false; [reflexivity|]. symmetry. apply Z.eqb_neq. apply root_In in Eli. rewrite nodup_cnt in ND1. cbn [plug] in ND1. intros ->. dj ND1.
        - unfold c2 in *. cbn [clefts cpar crep] in *. destruct HCR2 as (A & _). rewrite (tget_ok _ _ _ A). cbn [bind n_left]. cbn [root oeqb]. rewrite Z.eqb_refl. reflexivity. }
      rewrite FLG. cbn [bind]. rewrite HCj in C2, C3. rewrite (tget_ok _ _ _ C2). cbn [bind n_right]. rewrite E3. cbn [bind].
      destruct (bypass_idx c2 E j y s s ND1 ltac:(intros z; cbn [idx]; lia)) as [NI II].
      assert (EIT : forall k, In k (idx (plug c2 (N E j y s))) <-> In k (idx T)). { intros k. unfold c2. rewrite <- EF, ET. rewrite !cnt_In, !cnt_plug. reflexivity. }
      assert (TK : taken c l i x r c2 s) by (rewrite Er; constructor; exact NL).
      destruct (o_finish b T c2 s m3 j _ SP HW3 NT ltac:(rewrite L3; apply F1) C3) as (np & nr & arr & b' & c' & X1 & X2 & X3 & X4 & X5 & X6 & X7 & X8).
      + apply EIT. apply (cnt_sub _ _ _ _ _ _ eq_refl).
      + exact NI.
      + intros k Hk. apply EIT, II, Hk.
      + rewrite ET. apply (taken_nodes _ _ _ _ _ _ _ TK).
      + exact HL.
      + unfold b_mem. cbn [set_mem b_arr a_data b_root a_num a_last]. rewrite X1, X2. cbn [bind]. rewrite X3. cbn [bind after_delete]. rewrite set_arr_mem, X4. cbn [bind]. exists b', c2, s, c', j. rewrite X5. do 5 (split; [auto 10|]). right. split; [exact NL|]. exists fs, y. auto.
  Qed.
End Hist2.
