(** Proofs: SplayTree.join. *)
From Coq Require Import Sorting.Sorted Sorting.Permutation.
From Verif Require Import Base TreeModel TreeModel2 TreeModel3 TreeSpec TreeProofs TreeRotate TreeBst TreeTrav TreeQuery TreeLca TreeDel TreeHist TreeBalSpec TreeAvl TreeAvl2 TreeSim TreeTreap TreeSplay TreeReins TreeMulti TreeGap TreeSplaySpec TreeSplit TreeSplit2.

Section Join.
  Context {D : Type}.
  Notation info := (info D). Notation node := (node D). Notation mem := (mem D). Notation bst := (bst D). Notation bt := (bt D). Notation ctx := (ctx D).
  (** the array of a tree built by inserts has 2^m - 1 cells *)
  Definition pow_len (b : bst) : Prop := exists m, 0 <= m /\ len (b_mem b) = 2 ^ m - 1.
  Lemma splay_built os h : h <> [] -> NoDup (map fst h) -> exists (b : bst) T, build_with splay_insert None os h = Ret b /\ pgood b T h /\ pow_len b.
  Proof.
    intros NE ND. set (I := fun (b : bst) (T : bt) (h : list (Z * option D)) => pgood b T h /\ pow_len b).
    assert (ST : forall b T h k d, I b T h -> last_data h k = None -> exists b' T', splay_insert b k d = Ret b' /\ I b' T' (h ++ [(k, d)])).
    { intros b T h1 k d (H1 & m & Hm & H2) HL. destruct (splay_insert_ok b T h1 k d H1 HL) as (b' & T' & E1 & G1 & _). exists b', T'. split; [exact E1|]. split; [exact G1|].
      destruct H1 as [A B C F]. destruct (q_splay_insert b T h1 k d (Build_qgood _ _ _ A (grown_gapped _ _ B) C F) HL) as (b2 & T2 & E2 & _ & _ & L2 & _). assert (b2 = b') by congruence. subst b2. unfold pow_len. rewrite L2. unfold grow. destruct (b_size b =? len (b_mem b)); [exists (m + 1)|exists m]; split; try lia. rewrite Z.pow_add_r by lia. lia. }
    assert (NA := new_all splay_insert I ST). unfold build_with. cbn [option_map bst_new bind]. fold (fresh (D := D) os). destruct h as [|[k d] h]; [congruence|]. cbn [insert_with]. rewrite splay_first. cbn [bind].
    destruct (NA h (one os (with_isroot true (new_info (Some k) d))) (N E 0 (with_isroot true (new_info (Some k) d)) E) [(k, d)]) as (b & T & E1 & G & P); [split; [apply one_pgood; reflexivity|exists 1; split; [lia|reflexivity]]|exact ND|]. exists b, T. auto.
  Qed.
  Lemma full (b : bst) T h n : pgood b T h -> pow_len b -> 0 < n -> nodes T = 2 ^ n - 1 -> len (b_mem b) = b_size b.
  Proof.
    intros [_ G _ _] (m & Hm & HL) Hn EN. assert (GC := g_cap _ _ G). assert (GN := g_nodes _ _ G). assert (m = n); [|subst m; lia].
    destruct (Z.lt_trichotomy m n) as [L|[L|L]]; [|exact L|]; exfalso.
    - assert (2 ^ m < 2 ^ n) by (apply Z.pow_lt_mono_r; lia). lia.
    - assert (2 ^ (n + 1) <= 2 ^ m) by (apply Z.pow_le_mono_r; lia). rewrite Z.pow_add_r in * by lia. lia.
  Qed.
  (** the greatest and the least node *)
  Lemma follow_right (m : mem) rt (T : bt) : tree_at m rt T -> T <> E -> exists c l i x, T = plug c (N l i x E) /\ cr c = [] /\ follow n_right m rt = Ret (Some i).
  Proof.
    intros HT HE. assert (W : wp (follow n_right m rt) (fun r => exists c l i x, T = plug c (N l i x E) /\ cr c = [] /\ r = Some i)).
    { unfold follow. eapply (wp_while_g (fun n s => exists c l i x r, s = Some i /\ T = plug c (N l i x r) /\ cr c = [] /\ n = Z.to_nat (nodes (N l i x r)))).
      - intros n s (c & l & i & x & r & -> & ET & HC & ->). rewrite ET in HT. rewrite (tget_ok _ _ _ (sub_cell _ _ _ _ _ _ _ HT)). cbn [bind n_right]. destruct r as [|rl ri rx rr]; cbn [root wp].
        + exists c, l, i, x. auto.
        + eexists. split; [|exists (CR c l i x), rl, ri, rx, rr; auto]. cbn [nodes]. pose proof (nodes_nonneg l). pose proof (nodes_nonneg rl). pose proof (nodes_nonneg rr). lia.
      - destruct (root_cell _ _ _ HT HE) as (l & i & x & r & -> & -> & _). exists Top, l, i, x, r. auto.
      - apply (fuel_ok _ _ _ HT). }
    apply wp_ex in W as (r & E1 & c & l & i & x & A & B & ->). exists c, l, i, x. auto.
  Qed.
  Lemma follow_left (m : mem) rt (T : bt) : tree_at m rt T -> T <> E -> exists c r i x, T = plug c (N E i x r) /\ cl c = [] /\ follow n_left m rt = Ret (Some i).
  Proof.
    intros HT HE. assert (W : wp (follow n_left m rt) (fun s => exists c r i x, T = plug c (N E i x r) /\ cl c = [] /\ s = Some i)).
    { unfold follow. eapply (wp_while_g (fun n s => exists c l i x r, s = Some i /\ T = plug c (N l i x r) /\ cl c = [] /\ n = Z.to_nat (nodes (N l i x r)))).
      - intros n s (c & l & i & x & r & -> & ET & HC & ->). rewrite ET in HT. rewrite (tget_ok _ _ _ (sub_cell _ _ _ _ _ _ _ HT)). cbn [bind n_left]. destruct l as [|ll li lx lr]; cbn [root wp].
        + exists c, r, i, x. auto.
        + eexists. split; [|exists (CL c i x r), ll, li, lx, lr; auto]. cbn [nodes]. pose proof (nodes_nonneg r). pose proof (nodes_nonneg ll). pose proof (nodes_nonneg lr). lia.
      - destruct (root_cell _ _ _ HT HE) as (l & i & x & r & -> & -> & _). exists Top, l, i, x, r. auto.
      - apply (fuel_ok _ _ _ HT). }
    apply wp_ex in W as (r & E1 & c & l & i & x & A & B & ->). exists c, l, i, x. auto.
  Qed.
  (** appending the cells of another array *)
  Lemma append_el (a : aft D) el s : a_num a = s -> a_last a = s - 1 -> s <= len (a_data a) <= 2 * s - 1 ->
    exists a', aft_append a el = Ret a' /\ a_num a' = s + 1 /\ a_last a' = s /\ s + 1 <= len (a_data a') <= 2 * (s + 1) - 1 /\ cell (a_data a') s = el /\ forall i, i <> s -> cell (a_data a') i = cell (a_data a) i.
  Proof.
    intros E1 E2 HC. unfold aft_append. rewrite E1, E2. replace (s - 1 + 1) with s by lia.
    set (data := if s =? len (a_data a) then a_data a ++ repeat None (Z.to_nat (len (a_data a) + 1)) else a_data a).
    assert (LD : s + 1 <= len data <= 2 * (s + 1) - 1).
    { unfold data. destruct (Z.eqb_spec s (len (a_data a))); [unfold len in *; rewrite app_length, repeat_length; lia|lia]. }
    assert (CD : forall i, cell data i = cell (a_data a) i) by (intros i; unfold data; destruct (s =? len (a_data a)); [apply cell_app|reflexivity]).
    rewrite aset_ok by lia. cbn [bind]. unfold aft_modify. cbn [a_num a_data a_last]. rewrite len_zupd. destruct (Z.ltb_spec (4 * (s + 1)) (len data)); [lia|]. cbn [bind].
    eexists. split; [reflexivity|]. cbn [a_num a_data a_last]. rewrite len_zupd. split; [reflexivity|]. split; [reflexivity|]. split; [exact LD|].
    assert (inb data s) by (unfold inb; lia). split; [rewrite cell_zupd, Z.eqb_refl by assumption; reflexivity|]. intros i Hi. rewrite cell_zupd by assumption. apply Z.eqb_neq in Hi. rewrite Hi. apply CD.
  Qed.
  Lemma cell_cons (c : option node) (m : mem) j n : cell (c :: m) j = Some n -> j = 0 /\ c = Some n \/ 0 < j /\ cell m (j - 1) = Some n.
  Proof.
    intros H. assert (IB := cell_inb _ _ _ H). unfold inb in IB. unfold cell, aget in *. unfold len in *. cbn [length] in *. destruct (Z.eq_dec j 0) as [->|NZ].
    - left. split; [reflexivity|]. cbn in H. destruct c; [congruence|discriminate].
    - right. split; [lia|]. destruct (Z.ltb_spec j 0); [lia|]. destruct (Z.leb_spec (Z.of_nat (S (length m))) j); [lia|]. destruct (Z.ltb_spec (j - 1) 0); [lia|]. destruct (Z.leb_spec (Z.of_nat (length m)) (j - 1)); [lia|]. cbn [orb] in *. replace (Z.to_nat j) with (S (Z.to_nat (j - 1))) in H by lia. exact H.
  Qed.
  Lemma append_all (g : node -> node) (cs : mem) : forall (a : aft D) s, a_num a = s -> a_last a = s - 1 -> s <= len (a_data a) <= 2 * s - 1 ->
    exists a', forM cs (fun c arr => aft_append arr (option_map g c)) a = Ret a' /\ (forall z, z < s -> cell (a_data a') z = cell (a_data a) z) /\ forall j n, cell cs j = Some n -> cell (a_data a') (s + j) = Some (g n).
  Proof.
    induction cs as [|c cs IH]; intros a s E1 E2 HC; cbn [forM].
    - exists a. split; [reflexivity|]. split; [reflexivity|]. intros j n H. apply cell_inb in H. unfold inb, len in H. cbn in H. lia.
    - destruct (append_el a (option_map g c) s E1 E2 HC) as (a1 & EA & N1 & N2 & N3 & N4 & N5). rewrite EA. cbn [bind]. destruct (IH a1 (s + 1) N1 ltac:(lia) N3) as (a2 & EB & M1 & M2). exists a2. split; [exact EB|]. split.
      + intros z Hz. rewrite M1 by lia. apply N5. lia.
      + intros j n H. apply cell_cons in H as [[-> ->]|[L H]]; [rewrite Z.add_0_r, M1 by lia; rewrite N4; reflexivity|]. replace (s + j) with (s + 1 + (j - 1)) by lia. apply M2. exact H.
  Qed.
  (** the copied tree *)
  Fixpoint shift (d : Z) (T : bt) : bt := match T with E => E | N l i x r => N (shift d l) (i + d) (new_info (k_key x) (k_data x)) (shift d r) end.
  Lemma root_shift d (T : bt) : root (shift d T) = option_map (fun i => i + d) (root T).
  Proof. destruct T; reflexivity. Qed.
  Lemma ents_shift d (T : bt) : ents (shift d T) = ents T.
  Proof. unfold ents. induction T as [|l IHl i x r IHr]; cbn [shift infos]; [reflexivity|]. rewrite !map_app. cbn [map]. rewrite IHl, IHr. reflexivity. Qed.
  Lemma idx_shift d (T : bt) : idx (shift d T) = map (fun i => i + d) (idx T).
  Proof. induction T as [|l IHl i x r IHr]; cbn [shift idx]; [reflexivity|]. rewrite map_app. cbn [map]. rewrite IHl, IHr. reflexivity. Qed.
  Lemma shift_wrep (m m' : mem) d (T : bt) : (forall j n, cell m j = Some n -> cell m' (d + j) = Some (copy_node d n)) -> forall p, rep m T p -> wrep m' (shift d T).
  Proof.
    intros H. induction T as [|l IHl i x r IHr]; intros p; cbn [rep shift wrep]; [auto|]. intros (A & B & C). split; [|split; eauto]. unfold wcell. replace (i + d) with (d + i) by lia. rewrite (H _ _ A). cbn [option_map copy_node n_inf n_left n_right]. unfold n_key. cbn [n_inf]. rewrite !root_shift. reflexivity.
  Qed.
  Lemma wrep_cells (m m' : mem) (T : bt) : (forall z, In z (idx T) -> cell m' z = cell m z) -> wrep m T -> wrep m' T.
  Proof. intros H. apply wrep_ext. intros i Hi. unfold wcell. rewrite H by exact Hi. reflexivity. Qed.
  Lemma ord_split (T1 T2 : bt) : ordered (infos T1) -> ordered (infos T2) -> (forall k1 k2, In k1 (map fst (entries T1)) -> In k2 (map fst (entries T2)) -> k1 < k2) -> forall x y, In x (infos T1) -> In y (infos T2) -> klt x y.
  Proof.
    intros O1 O2 H x y Hx Hy. specialize (H (fst (entry x)) (fst (entry y)) ltac:(apply in_map, in_map; exact Hx) ltac:(apply in_map, in_map; exact Hy)). unfold klt. destruct O1 as [O1 _], O2 as [O2 _]. rewrite Forall_forall in O1, O2. specialize (O1 x Hx). specialize (O2 y Hy). unfold kis in *. unfold entry in H. cbn [fst] in H. destruct (k_key x), (k_key y); tauto || exact H.
  Qed.
  Lemma keyed (T : bt) x k : ordered (infos T) -> In x (infos T) -> k_key x = Some k -> In k (map fst (entries T)).
  Proof. intros _ HI Ek. unfold entries. rewrite map_map. apply in_map_iff. exists x. unfold entry. cbn [fst]. rewrite Ek. auto. Qed.
  (** the two ends *)
  Lemma max_key (T : bt) c l i x : ordered (infos T) -> T = plug c (N l i x E) -> cr c = [] -> exists k, k_key x = Some k /\ In k (map fst (entries T)) /\ forall z, In z (map fst (entries T)) -> z <= k.
  Proof.
    intros HO -> HC. destruct (ordered_here _ _ _ _ _ HO) as (k & Ek & _ & _ & F & _). exists k. split; [exact Ek|]. split; [apply (keyed _ x); [exact HO|rewrite infos_plug; cbn [infos]; rewrite !in_app_iff; cbn [In]; auto|exact Ek]|].
    intros z Hz. unfold entries in Hz. rewrite map_map, in_map_iff in Hz. destruct Hz as (q & Q1 & Q2). rewrite infos_plug, HC in Q2. cbn [infos] in Q2. rewrite !in_app_iff in Q2. cbn [In] in Q2. unfold entry in Q1. cbn [fst] in Q1. rewrite Forall_forall in F. specialize (F q). rewrite in_app_iff in F. unfold kis in F.
    destruct Q2 as [Q2|[[Q2|[<-|[]]]|[]]]; [| |rewrite Ek in Q1; lia]; specialize (F ltac:(auto)); destruct (k_key q); tauto || lia.
  Qed.
  Lemma min_key (T : bt) c i x r : ordered (infos T) -> T = plug c (N E i x r) -> cl c = [] -> exists k, k_key x = Some k /\ In k (map fst (entries T)) /\ forall z, In z (map fst (entries T)) -> k <= z.
  Proof.
    intros HO -> HC. destruct (ordered_here _ _ _ _ _ HO) as (k & Ek & _ & _ & _ & F). exists k. split; [exact Ek|]. split; [apply (keyed _ x); [exact HO|rewrite infos_plug; cbn [infos]; rewrite !in_app_iff; cbn [In]; auto|exact Ek]|].
    intros z Hz. unfold entries in Hz. rewrite map_map, in_map_iff in Hz. destruct Hz as (q & Q1 & Q2). rewrite infos_plug, HC in Q2. cbn [infos app] in Q2. cbn [In] in Q2. rewrite in_app_iff in Q2. unfold entry in Q1. cbn [fst] in Q1. rewrite Forall_forall in F. specialize (F q). rewrite in_app_iff in F. unfold kis in F.
    destruct Q2 as [<-|[Q2|Q2]]; [rewrite Ek in Q1; lia| |]; specialize (F ltac:(auto)); destruct (k_key q); tauto || lia.
  Qed.
  Lemma join_unordered (b1 b2 : bst) T1 T2 h1 h2 k1 k2 : pgood b1 T1 h1 -> pgood b2 T2 h2 -> In k1 (map fst (entries T1)) -> In k2 (map fst (entries T2)) -> k2 <= k1 -> splay_join b1 b2 = Raise ValueError.
  Proof.
    intros [D1 G1 C1 N1] [D2 G2 C2 N2] I1 I2 HL. destruct (follow_right _ _ _ (g_at _ _ G1) N1) as (c & l & i & x & EQ1 & HC & F1). destruct (follow_left _ _ _ (g_at _ _ G2) N2) as (c' & r & j & y & EQ2 & HC' & F2).
    destruct (max_key _ _ _ _ _ (proj1 C1) EQ1 HC) as (kx & Ex & _ & Mx). destruct (min_key _ _ _ _ _ (proj1 C2) EQ2 HC') as (ky & Ey & _ & My). assert (HT1 := g_at _ _ G1). assert (HT2 := g_at _ _ G2). rewrite EQ1 in HT1. rewrite EQ2 in HT2.
    unfold splay_join. rewrite F1. cbn [bind]. rewrite F2. cbn [bind]. rewrite (tget_ok _ _ _ (sub_cell _ _ _ _ _ _ _ HT1)). cbn [bind]. rewrite (tget_ok _ _ _ (sub_cell _ _ _ _ _ _ _ HT2)). cbn [bind]. unfold n_key. cbn [n_inf]. rewrite Ex, Ey. unfold comparator. rewrite D1. cbn [bind]. specialize (Mx k1 I1). specialize (My k2 I2). replace (kx <? ky) with false by lia. reflexivity.
  Qed.
  Lemma join_ok (b1 b2 : bst) T1 T2 h1 h2 : pgood b1 T1 h1 -> pgood b2 T2 h2 -> len (b_mem b1) = b_size b1 -> (forall k1 k2, In k1 (map fst (entries T1)) -> In k2 (map fst (entries T2)) -> k1 < k2) ->
    exists b T, splay_join b1 b2 = Ret b /\ default b /\ wtree (b_mem b) (b_root b) T /\ ordered (infos T) /\ T <> E /\ entries T = entries T1 ++ entries T2.
  Proof.
    intros [D1 G1 C1 N1] [D2 G2 C2 N2] FU LT. destruct (follow_right _ _ _ (g_at _ _ G1) N1) as (c & l & i & x & EQ1 & HC & F1). destruct (follow_left _ _ _ (g_at _ _ G2) N2) as (c' & r & j & y & EQ2 & HC' & F2).
    destruct (max_key _ _ _ _ _ (proj1 C1) EQ1 HC) as (kx & Ex & Ix & Mx). destruct (min_key _ _ _ _ _ (proj1 C2) EQ2 HC') as (ky & Ey & Iy & My). assert (HT1 := g_at _ _ G1). assert (HT2 := g_at _ _ G2). rewrite EQ1 in HT1. assert (HT2' := HT2). rewrite EQ2 in HT2'.
    unfold splay_join. rewrite F1. cbn [bind]. rewrite F2. cbn [bind]. rewrite (tget_ok _ _ _ (sub_cell _ _ _ _ _ _ _ HT1)). cbn [bind]. rewrite (tget_ok _ _ _ (sub_cell _ _ _ _ _ _ _ HT2')). cbn [bind]. unfold n_key. cbn [n_inf n_parent]. rewrite Ex, Ey. unfold comparator. rewrite D1. cbn [bind]. specialize (LT kx ky Ix Iy) as Lxy. replace (kx <? ky) with true by lia. cbn [negb].
    assert (O1 := proj1 C1). rewrite EQ1 in G1. destruct (splay_ok b1 c l i x E G1) as (b & l1 & r1 & E1 & GB & EN & K1 & K2 & K3 & K4). rewrite E1. cbn [bind].
    assert (ENT : ents (N l1 i x r1) = ents T1) by (rewrite EQ1; exact EN). assert (OB : ordered (infos (N l1 i x r1))) by (eapply ordered_ents; [symmetry; exact ENT|exact O1]).
    assert (ER : r1 = E).
    { destruct r1 as [|rl ri rx rr]; [reflexivity|exfalso]. destruct (ordered_here Top _ _ _ _ OB) as (k & Ek & _ & _ & _ & F). assert (k = kx) by congruence. subst k. cbn [cr] in F. rewrite app_nil_r in F. rewrite Forall_forall in F. specialize (F rx ltac:(cbn [infos]; rewrite in_app_iff; cbn [In]; auto)). unfold kis in F. destruct (k_key rx) as [kr|] eqn:Er; [|exact F].
      assert (Q : In kr (map fst (entries T1))). { assert (HQ : entries (N l1 i x (N rl ri rx rr)) = entries T1) by (apply okeys_inj; rewrite <- !ents_okeys by assumption; exact ENT). rewrite <- HQ. apply (keyed _ rx); [exact OB| |exact Er]. cbn [infos]. rewrite !in_app_iff. cbn [In]. rewrite in_app_iff. cbn [In]. tauto. } specialize (Mx kr Q). lia. }
    subst r1. assert (ENT1 : entries (N l1 i x E) = entries T1) by (apply okeys_inj; rewrite <- !ents_okeys by assumption; exact ENT).
    destruct (append_all (copy_node (len (b_mem b))) (b_mem b2) (b_arr b) (b_size b) (g_num _ _ GB) (g_last _ _ GB) (g_cap _ _ GB)) as (arr & EA & A1 & A2). rewrite EA. cbn [bind].
    assert (LB : len (b_mem b) = b_size b) by congruence. rewrite LB in *.
    assert (HB := g_at _ _ GB). assert (RB : b_root b = Some i) by (apply HB). assert (HI : 0 <= i < b_size b) by (apply (g_idx _ _ GB); cbn [idx]; apply in_or_app; right; left; reflexivity).
    assert (HCi := sub_cell _ _ Top _ _ _ _ HB). assert (HCa : cell (a_data arr) i = Some (mknode x (root l1) (root (D := D) E) (cpar (D := D) Top))) by (rewrite A1 by lia; exact HCi). destruct (tmod_step (a_data arr) i (set_right (option_map (fun i => i + b_size b) (root T2))) _ HCa) as (m3 & E3 & HC3 & F3).
    assert (R2 : b_root b2 = root T2) by (apply HT2). rewrite R2, RB. destruct T2 as [|l2 i2 x2 r2] eqn:ET2; [congruence|]. cbn [root]. cbn [root option_map] in E3. rewrite E3. cbn [bind]. rewrite <- ET2 in *.
    assert (SH : wrep (a_data arr) (shift (b_size b) T2)) by (eapply shift_wrep; [exact A2|apply HT2]).
    assert (IN2 : forall z, In z (idx (shift (b_size b) T2)) -> b_size b <= z). { intros z Hz. rewrite idx_shift, in_map_iff in Hz. destruct Hz as (q & <- & Hq). pose proof (g_idx _ _ G2 q Hq). lia. }
    eexists. exists (N l1 i x (shift (b_size b) T2)). split; [reflexivity|]. split; [unfold default in *; cbn [set_mem set_arr b_comp]; congruence|]. split; [|split; [|split; [discriminate|]]].
    - unfold b_mem. cbn [set_mem set_arr b_arr a_data b_root]. split; [|split].
      + cbn [wrep]. split; [unfold wcell; rewrite HC3; cbn [set_right option_map n_inf n_left n_right]; rewrite root_shift; unfold root at 3; rewrite ET2; reflexivity|]. assert (NDB := proj1 (proj2 HB)). rewrite nodup_cnt in NDB. split.
        * destruct (proj1 HB) as (_ & RL & _). eapply wrep_cells; [|exact (rep_wrep _ _ _ RL)]. intros z Hz. rewrite (proj2 F3) by (intros [<-|[]]; dj NDB). apply A1. apply (g_idx _ _ GB). cbn [idx]. apply in_or_app. auto.
        * eapply wrep_cells; [|exact SH]. intros z Hz. apply (proj2 F3). intros [<-|[]]. specialize (IN2 i Hz). lia.
      + cbn [idx]. apply nodup_cnt. intros z. rewrite cnt_app, cnt_cons. assert (NDB := proj1 (proj2 HB)). rewrite nodup_cnt in NDB. specialize (NDB z). cbn [idx] in NDB. rewrite cnt_app, cnt_cons, cnt_nil in NDB.
        assert (ND2 : NoDup (idx (shift (b_size b) T2))). { rewrite idx_shift. apply FinFun.Injective_map_NoDup; [intros u v; lia|apply HT2]. } rewrite nodup_cnt in ND2. specialize (ND2 z).
        destruct (Nat.eq_dec (cnt z (idx (shift (b_size b) T2))) 0) as [Z0|Z0]; [lia|]. assert (b_size b <= z) by (apply IN2, cnt_In; lia). assert (cnt z (idx l1) = 0%nat). { destruct (cnt z (idx l1)) eqn:Ec; [reflexivity|exfalso]. assert (In z (idx l1)) as Hz by (apply cnt_In; lia). assert (0 <= z < b_size b) by (apply (g_idx _ _ GB); cbn [idx]; apply in_or_app; auto). lia. } destruct (Z.eqb_spec z i); lia.
      + cbn [root]. exact RB.
    - assert (OS : ordered (infos (shift (b_size b) T2))) by (eapply ordered_ents; [symmetry; apply ents_shift|apply C2]). cbn [infos]. change (x :: infos (shift (b_size b) T2)) with ([x] ++ infos (shift (b_size b) T2)). rewrite app_assoc. apply ordered_app. split; [exact OB|]. split; [exact OS|].
      assert (ES : entries (shift (b_size b) T2) = entries T2) by (apply okeys_inj; rewrite <- !ents_okeys by (assumption || apply C2); apply ents_shift). intros p q Hp Hq. apply (ord_split (N l1 i x E) (shift (b_size b) T2) OB OS); [rewrite ENT1, ES; exact LT|exact Hp|exact Hq].
    - assert (OS : ordered (infos (shift (b_size b) T2))) by (eapply ordered_ents; [symmetry; apply ents_shift|apply C2]).
      assert (ES : entries (shift (b_size b) T2) = entries T2) by (apply okeys_inj; rewrite <- !ents_okeys by (assumption || apply C2); apply ents_shift). rewrite <- ENT1, <- ES. unfold entries. cbn [infos]. change (x :: infos (shift (b_size b) T2)) with ([x] ++ infos (shift (b_size b) T2)). rewrite app_assoc, map_app. reflexivity.
  Qed.
End Join.
