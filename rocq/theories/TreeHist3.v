(** Proofs: the state of a BinarySearchTree follows the sorted list of entries through inserts and deletes in any order. *)
From Coq Require Import Sorting.Sorted.
From Verif Require Import Base TreeModel TreeModel2 TreeSpec TreeProofs TreeRotate TreeBst TreeTrav TreeQuery TreeLca TreeDel TreeHist TreeBalSpec TreeAvl TreeAvl2 TreeSim TreeMulti TreeDel2 TreeDel3 TreeHist2Spec TreeHist2.

Section Hist3.
  Context {D : Type}.
  Notation info := (info D). Notation node := (node D). Notation mem := (mem D). Notation bst := (bst D). Notation bt := (bt D). Notation ctx := (ctx D).
  (** cells with their keys, in order *)
  Definition zk (T : bt) : list (Z * option Z) := combine (idx T) (map k_key (infos T)).
  Lemma zk_eq (T T' : bt) : idx T = idx T' -> map k_key (infos T) = map k_key (infos T') -> zk T = zk T'.
  Proof. unfold zk. intros -> ->. reflexivity. Qed.
  Lemma keys_ents (T T' : bt) : ents T = ents T' -> map k_key (infos T) = map k_key (infos T').
  Proof. intros H. apply (f_equal (map fst)) in H. unfold ents in H. rewrite !map_map in H. exact H. Qed.
  Lemma combine_app {A B} (a : list A) (b : list B) : forall a' b', length a = length b -> combine (a ++ a') (b ++ b') = combine a b ++ combine a' b'.
  Proof. revert b. induction a as [|x a IH]; intros [|y b] a' b'; cbn; intros H; try lia; [reflexivity|]. f_equal. apply IH. lia. Qed.
  Lemma len_idx_infos (T : bt) : length (idx T) = length (infos T).
  Proof. induction T as [|l IHl i x r IHr]; cbn [idx infos]; [reflexivity|]. rewrite !app_length. cbn [length]. lia. Qed.
  Lemma len_zk (T : bt) : length (idx T) = length (map k_key (infos T)).
  Proof. rewrite map_length. apply len_idx_infos. Qed.
  Lemma zk_N (l : bt) i x r : zk (N l i x r) = zk l ++ (i, k_key x) :: zk r.
  Proof. unfold zk. cbn [idx infos]. rewrite map_app. rewrite combine_app by apply (len_zk l). reflexivity. Qed.
  Fixpoint zl (c : ctx) : list (Z * option Z) := match c with Top => [] | CL c _ _ _ => zl c | CR c l i x => zl c ++ zk l ++ [(i, k_key x)] end.
  Fixpoint zr (c : ctx) : list (Z * option Z) := match c with Top => [] | CL c i x r => (i, k_key x) :: zk r ++ zr c | CR c _ _ _ => zr c end.
  Lemma zk_plug (c : ctx) : forall S, zk (plug c S) = zl c ++ zk S ++ zr c.
  Proof.
    induction c as [|c IH i x r|c IH l i x]; intros S; cbn [plug zl zr]; [rewrite app_nil_r; reflexivity|..]; rewrite IH, zk_N, <- ?app_assoc; cbn [app]; rewrite <- ?app_assoc; reflexivity.
  Qed.
  Lemma cz_zk (c : ctx) : forall c', cz c c' -> zl c' = zl c /\ zr c' = zr c.
  Proof.
    induction c as [|c IH i x r|c IH l i x]; intros [|c' i' x' r'|c' l' i' x']; cbn [cz]; try tauto; intros (-> & (z & ->) & -> & H); cbn [zl zr with_size k_key]; destruct (IH _ H) as [-> ->]; auto.
  Qed.
  Lemma zk_idx (T : bt) i k : In (i, k) (zk T) -> In i (idx T).
  Proof. apply in_combine_l. Qed.
  Lemma zk_fun (T : bt) i k k' : NoDup (idx T) -> In (i, k) (zk T) -> In (i, k') (zk T) -> k = k'.
  Proof.
    unfold zk. assert (HL := len_zk T). revert HL. generalize (map k_key (infos T)) as ks. generalize (idx T) as l. clear T. induction l as [|j l IH]; intros [|q ks] HL ND; cbn [combine In]; [tauto..|].
    cbn [length] in HL. inversion ND; subst. intros [H|H] [H'|H'].
    - congruence.
    - injection H as -> ->. apply in_combine_l in H'. contradiction.
    - injection H' as -> ->. apply in_combine_l in H. contradiction.
    - eapply IH; eauto.
  Qed.
  Lemma cz_root (c : ctx) : forall c' (S S' : bt), cz c c' -> c <> Top -> rkey (plug c' S') = rkey (plug c S) /\ root (plug c' S') = root (plug c S).
  Proof.
    induction c as [|c IH i x r|c IH l i x]; intros [|c' i' x' r'|c' l' i' x'] S S'; cbn [cz]; try (intros []; fail); [congruence|..]; intros (-> & (z & ->) & -> & H) _; cbn [plug];
    (destruct c as [|? ? ? ?|? ? ? ?], c' as [|? ? ? ?|? ? ? ?]; try (cbn [cz] in H; tauto); (apply IH; [exact H|discriminate])).
  Qed.

  (** entries and keys around a key *)
  Lemma filter_all {A} (f : A -> bool) (l : list A) : Forall (fun x => f x = true) l -> filter f l = l.
  Proof. induction 1 as [|x l H _ IH]; cbn; [reflexivity|]. rewrite H, IH. reflexivity. Qed.
  Lemma filter_none {A} (f : A -> bool) (l : list A) : Forall (fun x => f x = false) l -> filter f l = [].
  Proof. induction 1 as [|x l H _ IH]; cbn; [reflexivity|]. rewrite H, IH. reflexivity. Qed.
  Lemma entry_all (P : Z -> Prop) (f : Z * option D -> bool) v (l : list info) : Forall (kis P) l -> (forall k d, P k -> f (k, d) = v) -> Forall (fun e => f e = v) (map entry l).
  Proof. intros H HF. apply Forall_map. eapply Forall_impl; [|exact H]. intros x Hx. unfold kis in Hx. unfold entry. destruct (k_key x); [|destruct Hx]. apply HF. exact Hx. Qed.
  Lemma put_at (a b : list info) e key d : Forall (kis (fun k => k < key)) a -> Forall (kis (fun k => key < k)) b -> (e = [] \/ exists x, e = [x] /\ k_key x = Some key) ->
    put key d (map entry (a ++ e ++ b)) = map entry a ++ (key, d) :: map entry b.
  Proof.
    intros HA HB HE. unfold put. rewrite !map_app, !filter_app.
    rewrite (filter_all _ (map entry a)) by (eapply entry_all; [exact HA|]; cbn; intros; lia). rewrite (filter_none _ (map entry b)) by (eapply entry_all; [exact HB|]; cbn; intros; lia).
    rewrite (filter_none _ (map entry a)) by (eapply entry_all; [exact HA|]; cbn; intros; lia). rewrite (filter_all _ (map entry b)) by (eapply entry_all; [exact HB|]; cbn; intros; lia).
    destruct HE as [->|(x & -> & Ek)]; cbn [map filter]; [rewrite app_nil_r; reflexivity|]. unfold entry at 2 4. rewrite Ek. cbn [fst]. rewrite Z.ltb_irrefl, app_nil_r. reflexivity.
  Qed.
  Lemma is_key_at (a b : list info) e key : Forall (kis (fun k => k < key)) a -> Forall (kis (fun k => key < k)) b -> is_key (map entry (a ++ e ++ b)) key = existsb (fun x => fst x =? key) (map entry e).
  Proof.
    intros HA HB. unfold is_key. rewrite !map_app, !existsb_app. assert (Q : forall l, Forall (fun x : Z * option D => (fst x =? key) = false) l -> existsb (fun x => fst x =? key) l = false) by (induction 1 as [|x l H _ IH]; cbn; [reflexivity|]; rewrite H; exact IH).
    rewrite (Q (map entry a)) by (eapply entry_all; [exact HA|]; cbn; intros; lia). rewrite (Q (map entry b)) by (eapply entry_all; [exact HB|]; cbn; intros; lia). cbn [orb]. apply orb_false_r.
  Qed.
  Lemma fst_entry (x : info) k : k_key x = Some k -> fst (entry x) = k.
  Proof. unfold entry. intros ->. reflexivity. Qed.
  Lemma next_at (a : list info) x y b key ky : Forall (kis (fun k => k < key)) a -> k_key x = Some key -> k_key y = Some ky -> key < ky -> next_key (map entry (a ++ x :: y :: b)) key = Some ky.
  Proof.
    intros HA Ex Ey L. unfold next_key. induction HA as [|z a Hz _ IH]; cbn [app map find].
    - rewrite (fst_entry x key Ex), (fst_entry y ky Ey), Z.ltb_irrefl. replace (key <? ky) with true by lia. cbn [option_map]. f_equal. apply fst_entry. exact Ey.
    - unfold kis in Hz. destruct (k_key z) as [kz|] eqn:Ez; [|destruct Hz]. rewrite (fst_entry z kz Ez). replace (key <? kz) with false by lia. exact IH.
  Qed.

  Record hgood (b : bst) (T : bt) (s : bmap D) : Prop := {
    hg_def : default b;
    hg_h : holed b T;
    hg_ord : ordered (infos T);
    hg_ne : T <> E;
    hg_sz : b_os b = true -> sized T;
    hg_ents : entries T = s_ents s;
    hg_used : b_size b = s_used s;
    hg_new : In (b_size b - 1, Some (s_newest s)) (zk T);
    hg_rk : rkey T = Some (s_rootk s);
    hg_root : b_root b = Some 0 }.
  Lemma rootk_in b T s : hgood b T s -> is_key (s_ents s) (s_rootk s) = true.
  Proof.
    intros G. rewrite <- (hg_ents _ _ _ G). destruct T as [|l i x r]; [destruct (hg_ne _ _ _ G); reflexivity|]. assert (R := hg_rk _ _ _ G). cbn [rkey] in R. apply existsb_exists. exists (entry x). split; [unfold entries; apply in_map; cbn [infos]; apply in_or_app; right; left; reflexivity|]. unfold entry. rewrite R. apply Z.eqb_refl.
  Qed.
  Lemma hg_start os k d : hgood (mkbst (mkaft [Some (set_inf (with_isroot true) (new_node (Some k) d))] 1 0) (Some 0) 1 None os) (N E 0 (with_isroot true (new_info (Some k) d)) E) (bmap_first k d).
  Proof.
    destruct (one_good os k d) as [A B [G1 G2 G3 G4 G5 G6] F H I J K]. split; try assumption; try reflexivity.
    - split; try assumption; cbn in *; lia.
    - cbn. auto.
  Qed.

  Lemma hg_insert b T s k d : hgood b T s -> exists b' T', insert b k d = Ret b' /\ b_os b' = b_os b /\
    hgood b' T' (if is_key (s_ents s) k then mkbmap (put k d (s_ents s)) (s_used s) (s_newest s) (s_rootk s) else mkbmap (put k d (s_ents s)) (s_used s + 1) k (s_rootk s)).
  Proof.
    intros G. destruct G as [GD GH GO GE GS GI GU GN GK GR]. destruct (search_ok b T k GD (o_at _ _ GH) GO GE) as (c & S & E0 & _ & K). assert (K' := K). destruct K' as (ET & [P1 P2] & HS). destruct HS as [->|(l & i & x & r & -> & Ek)].
    - clear ET P1 P2. destruct (o_insert_pre b T k d c GD GH GO GE K) as (c1 & b1 & K1 & NT & E1 & G1 & N4 & N5 & N6 & N7). clear K. destruct K1 as (ET & [P1 P2] & _). cbn [root] in E0.
      assert (EI : is_key (s_ents s) k = false) by (rewrite <- GI; unfold entries; rewrite ET, infos_plug; rewrite is_key_at by assumption; reflexivity). rewrite EI.
      assert (FIN : exists b2, insert b k d = Ret b2 /\ b_comp b2 = b_comp b1 /\ b_os b2 = b_os b1 /\ b_size b2 = b_size b1 /\ b_root b2 = b_root b1 /\ holed b2 (addleaf (b_os b) c1 (b_size b) (new_info (Some k) d))).
      { destruct (b_os b) eqn:Eos.
        - destruct (update_size_ok b1 c1 E (b_size b) (new_info (Some k) d) E (o_at _ _ G1) I I) as (m3 & E3 & HT3 & F3).
          { specialize (GS eq_refl). rewrite ET in GS. apply (sized_plug c1 (@E D)). exact GS. }
          { congruence. }
          exists (set_mem b1 m3). split; [congruence|]. cbn [set_mem b_comp b_os b_size b_root]. do 4 (split; [reflexivity|]).
          assert (EI' := idx_up c1 (N E (b_size b) (new_info (Some k) d) E)). assert (EN' := nodes_ents _ _ (ents_up c1 (N E (b_size b) (new_info (Some k) d) E))). unfold addleaf. destruct G1 as [? G12 G13 G14 G15 G16].
          constructor; cbn [set_mem b_comp b_os b_size b_root b_mem b_arr a_data a_num a_last] in *; unfold b_mem in *; try rewrite (proj1 F3); try assumption; try lia.
          intros z Hz. apply G15. rewrite <- EI'. exact Hz.
        - exists b1. split; [rewrite E1; unfold update_size; rewrite N5; reflexivity|]. auto. }
      destruct FIN as (b2 & E2 & M1 & M2 & M3 & M4 & G2). exists b2, (addleaf (b_os b) c1 (b_size b) (new_info (Some k) d)). split; [exact E2|]. split; [congruence|].
      assert (EN := ents_addleaf (b_os b) c1 (b_size b) (new_info (Some k) d)). unfold ent at 2 in EN. cbn [new_info k_key k_data] in EN.
      assert (EN2 : ents (addleaf (b_os b) c1 (b_size b) (new_info (Some k) d)) = ents (plug c1 (N E (b_size b) (new_info (Some k) d) E))) by (rewrite EN; unfold ents; rewrite infos_plug, !map_app; reflexivity).
      assert (OO : ordered (infos (plug c1 (N E (b_size b) (new_info (Some k) d) E)))). { rewrite infos_plug. cbn [infos app]. rewrite ET, infos_plug in GO. cbn [infos app] in GO. apply ordered_app in GO as (O1 & O2 & _). apply ordered_mid. split; [exact O1|]. split; [exact O2|]. exists k. auto. }
      split; cbn [s_ents s_used s_newest s_rootk]; [unfold default in *; congruence|exact G2| | | | |lia| | |congruence].
      + eapply ordered_ents; [symmetry; exact EN2|exact OO].
      + intros X. apply (f_equal nodes) in X. rewrite nodes_addleaf in X. cbn [nodes] in X. pose proof (nodes_nonneg (plug c1 (@E D))). lia.
      + intros HO. rewrite M2, N5 in HO. specialize (GS HO). rewrite ET in GS. apply sized_plug in GS as [_ GS]. unfold addleaf. rewrite HO. apply sized_up; [cbn [sized new_info k_size nodes]; auto|exact GS].
      + apply okeys_inj. rewrite <- ents_okeys by (eapply ordered_ents; [symmetry; exact EN2|exact OO]). rewrite <- GI. replace (entries T) with (map entry (cl c1 ++ [] ++ cr c1)) by (unfold entries; rewrite ET, infos_plug; reflexivity). rewrite (put_at (cl c1) (cr c1) [] k d P1 P2) by auto. rewrite EN. unfold okeys. rewrite map_app. cbn [map fst snd].
        rewrite ET, infos_plug in GO. cbn [infos app] in GO. apply ordered_app in GO as (O1 & O2 & _). destruct (entries_ok _ O1) as [_ X1]. destruct (entries_ok _ O2) as [_ X2]. rewrite X1, X2. reflexivity.
      + rewrite M3, N6. replace (b_size b + 1 - 1) with (b_size b) by lia. rewrite (zk_eq _ (plug c1 (N E (b_size b) (new_info (Some k) d) E))); [|unfold addleaf; destruct (b_os b); [apply idx_up|reflexivity]|apply keys_ents; exact EN2]. rewrite zk_plug, zk_N. apply in_or_app. right. apply in_or_app. left. left. reflexivity.
      + rewrite <- GK. unfold addleaf. destruct (b_os b); rewrite ?rkey_up, ET; apply rkey_plug; congruence.
    - cbn [root] in E0. unfold insert. rewrite E0. cbn [bind]. assert (HT := o_at _ _ GH). rewrite ET in HT. assert (HC := sub_cell _ _ _ _ _ _ _ HT). rewrite (tmod_inf _ _ _ _ HC). cbn [n_inf]. destruct (set_info_ok _ _ _ _ _ _ _ (with_data d x) HT) as (m & Em & HT' & F). rewrite Em. cbn [bind].
      assert (EIx : idx (plug c (N l i (with_data d x) r)) = idx T) by (rewrite ET; apply idx_plug_eq; reflexivity).
      exists (set_mem b m), (plug c (N l i (with_data d x) r)). split; [reflexivity|]. split; [reflexivity|].
      assert (GO' := GO). rewrite ET in GO'. rewrite infos_plug in GO'. cbn [infos] in GO'. rewrite <- app_assoc in GO'. cbn [app] in GO'. rewrite app_assoc in GO'. assert (GM := GO'). apply ordered_mid in GM as (O1 & O2 & k1 & Ek1 & F2 & F3). rewrite Ek in Ek1. injection Ek1 as <-.
      assert (EL : forall y, infos (plug c (N l i y r)) = (cl c ++ infos l) ++ [y] ++ (infos r ++ cr c)) by (intros y; rewrite infos_plug; cbn [infos app]; rewrite <- !app_assoc; reflexivity).
      assert (EI : is_key (s_ents s) k = true) by (rewrite <- GI; unfold entries; rewrite ET, EL, is_key_at by assumption; cbn [map existsb]; unfold entry; rewrite Ek; cbn [fst]; rewrite Z.eqb_refl; reflexivity). rewrite EI.
      assert (OO : ordered (infos (plug c (N l i (with_data d x) r)))). { eapply ordered_keys; [|exact GO]. rewrite ET, !EL, !map_app. reflexivity. }
      assert (NN : nodes (plug c (N l i (with_data d x) r)) = nodes T) by (rewrite !nodes_len, EIx; reflexivity).
      split; cbn [s_ents s_used s_newest s_rootk]; [exact GD| |exact OO| | | |exact GU| | |exact GR].
      + destruct GH. constructor; cbn [set_mem b_comp b_os b_size b_root b_mem b_arr a_data a_num a_last]; rewrite ?EIx, ?NN; try assumption; unfold b_mem in *; rewrite ?(proj1 F); assumption.
      + intros X. rewrite X in NN. cbn [nodes] in NN. destruct T as [|l0 i0 x0 r0]; [congruence|]. cbn [nodes] in NN. pose proof (nodes_nonneg l0). pose proof (nodes_nonneg r0). lia.
      + intros HO. cbn [set_mem b_os] in HO. specialize (GS HO). rewrite ET in GS. clear - GS. revert GS. assert (Q : forall S S' : bt, nodes S = nodes S' -> (sized S -> sized S') -> sized (plug c S) -> sized (plug c S')).
        { induction c as [|c IH j y r0|c IH l0 j y]; intros S S' Hn HS; cbn [plug]; [exact HS|..]; apply IH; cbn [nodes sized]; try (rewrite Hn; reflexivity); rewrite Hn; tauto. }
        apply Q; [reflexivity|cbn [sized with_data k_size]; auto].
      + rewrite <- GI. replace (entries T) with (map entry ((cl c ++ infos l) ++ [x] ++ (infos r ++ cr c))) by (unfold entries; rewrite ET, EL; reflexivity). unfold entries. rewrite EL. rewrite (put_at (cl c ++ infos l) (infos r ++ cr c) [x] k d F2 F3) by eauto. rewrite map_app. cbn [map app]. replace (entry (with_data d x)) with (k, d) by (unfold entry; cbn [with_data k_key k_data]; rewrite Ek; reflexivity). reflexivity.
      + cbn [set_mem b_size]. rewrite (zk_eq _ T); [exact GN|exact EIx|]. rewrite ET, !EL, !map_app. reflexivity.
      + rewrite <- GK, ET. apply rkey_plug. reflexivity.
  Qed.

  Lemma gone_sized c l i (x : info) r c1 S j : gone c l i x r c1 S j -> sized (plug c (N l i x r)) -> csized c1 /\ sized S.
  Proof.
    intros [(_ & _ & -> & HS)|(NL & fs & y & -> & ->)] HZ.
    - apply sized_plug in HZ as [(_ & Z1 & Z2) Z3]. split; [exact Z3|]. destruct HS as [[-> _]|[-> _]]; assumption.
    - change (plug c (N l i x (plugl fs (N E j y S)))) with (plug (CR c l i x) (plugl fs (N E j y S))) in HZ. rewrite <- plug_clefts in HZ. apply sized_plug in HZ as [(_ & _ & Z1) Z2]. split; [|exact Z1].
      clear - Z2. induction fs as [|[[a b] q] fs IH]; cbn [clefts csized] in *; [exact Z2|]. split; [apply Z2|apply IH, Z2].
  Qed.
  Lemma zk_plugl fs : exists q, forall S : bt, zk (plugl fs S) = zk S ++ q.
  Proof. induction fs as [|[[a b] w] fs (q & IH)]; cbn [plugl]; [exists []; intros S; rewrite app_nil_r; reflexivity|]. exists ((a, k_key b) :: zk w ++ q). intros S. rewrite IH, zk_N, <- app_assoc. reflexivity. Qed.
  (** the removed cell had the key itself or the next one; the other cells stay *)
  Lemma gone_zk c l i (x : info) r c1 S j key : gone c l i x r c1 S j -> k_key x = Some key -> ordered (infos (plug c (N l i x r))) ->
    exists kj, In (j, Some kj) (zk (plug c (N l i x r))) /\ (kj = key \/ next_key (entries (plug c (N l i x r))) key = Some kj) /\
      forall p q, In (p, Some q) (zk (plug c (N l i x r))) -> q <> key -> q <> kj -> In (p, Some q) (zk (plug c1 S)).
  Proof.
    intros [(_ & -> & -> & HS)|(NL & fs & y & -> & ->)] Ek HO.
    - exists key. rewrite !zk_plug, zk_N, Ek. split; [rewrite !in_app_iff; cbn [In]; auto|]. split; [auto|]. intros p q Hp N1 _. rewrite !in_app_iff in *. cbn [In] in Hp. destruct HS as [[-> ->]|[-> ->]]; cbn [zk idx infos map combine In] in *;
      (destruct Hp as [Hp|[[Hp|[Hp|Hp]]|Hp]]; auto; try contradiction; injection Hp as _ Hp; congruence).
    - assert (HO' := HO). rewrite infos_plug in HO'. cbn [infos] in HO'. rewrite infos_plugl in HO'. cbn [infos app] in HO'. rewrite <- !app_assoc in HO'. cbn [app] in HO'. rewrite <- !app_assoc in HO'. rewrite app_assoc in HO'. apply ordered_mid in HO' as (_ & _ & k1 & Ek1 & F1 & F2). rewrite Ek in Ek1. injection Ek1 as <-.
      assert (HY := Forall_inv F2). unfold kis in HY. destruct (k_key y) as [ky|] eqn:Ey; [|destruct HY]. exists ky. destruct (zk_plugl fs) as (w & HW). rewrite plug_clefts. cbn [plug]. rewrite !zk_plug, !zk_N, !HW, zk_N, Ek, Ey. change (zk (@E D)) with (@nil (Z * option Z)). cbn [app moved with_key k_key].
      split; [rewrite !in_app_iff; cbn [In]; auto 10|]. split.
      + right. unfold entries. rewrite infos_plug. cbn [infos]. rewrite infos_plugl. cbn [infos app]. rewrite <- !app_assoc. cbn [app]. rewrite <- !app_assoc, app_assoc. cbn [app]. apply next_at; assumption.
      + intros p q Hp N1 N2. rewrite !in_app_iff in *. cbn [In] in *. rewrite !in_app_iff in *. destruct Hp as [Hp|[[Hp|[Hp|[Hp|Hp]]]|Hp]]; auto 10; injection Hp as _ Hp; congruence.
  Qed.
  Lemma gone_root c l i (x : info) r c1 S j c' key s : gone c l i x r c1 S j -> cz c1 c' -> k_key x = Some key -> ordered (infos (plug c (N l i x r))) -> rkey (plug c (N l i x r)) = Some (s_rootk s) -> entries (plug c (N l i x r)) = s_ents s ->
    root (plug c' S) = root (plug c (N l i x r)) /\ rkey (plug c' S) = Some (if key =? s_rootk s then match next_key (s_ents s) key with Some k' => k' | None => key end else s_rootk s).
  Proof.
    intros HG CZ Ek HO HR HE.
    assert (NR : c <> Top -> key <> s_rootk s). { intros NT X. destruct (root_info c NT (N l i x r)) as (rl & ri & rx & rr & EP & HI). rewrite EP in HR. cbn [rkey] in HR. destruct (ordered_here _ _ _ _ _ HO) as (k & Ek' & _ & _ & F1 & F2). rewrite Ek in Ek'. injection Ek' as <-. rewrite Forall_app in F1, F2. rewrite !Forall_forall in F1, F2. destruct HI as [HI|HI]; [apply (proj1 F1) in HI|apply (proj2 F2) in HI]; unfold kis in HI; rewrite HR in HI; lia. }
    assert (NT2 : c <> Top -> forall S', rkey (plug c S') = rkey (plug c (N l i x r)) /\ root (plug c S') = root (plug c (N l i x r))). { intros NT S'. destruct (cz_root c c (N l i x r) S' (cz_refl c) NT). auto. }
    destruct HG as [(NT & -> & -> & HS)|(NL & fs & y & -> & ->)].
    - destruct (cz_root c c' (N l i x r) S CZ NT) as [R1 R2]. rewrite R1, R2. split; [reflexivity|]. rewrite HR. specialize (NR NT). apply Z.eqb_neq in NR. rewrite NR. reflexivity.
    - assert (NT1 : clefts (CR c l i (moved y x)) fs <> Top) by (apply clefts_top; discriminate). destruct (cz_root _ c' S S CZ NT1) as [R1 R2]. rewrite R1, R2, plug_clefts. cbn [plug].
      destruct c as [|c0 a b w|c0 w a b].
      + cbn [plug root rkey moved with_key k_key] in *. split; [reflexivity|]. rewrite Ek in HR. injection HR as HR. rewrite <- HR, Z.eqb_refl. rewrite <- HE. cbn [infos] in HO. rewrite infos_plugl in HO. cbn [infos app] in HO. apply ordered_mid in HO as (_ & _ & k1 & Ek1 & F1 & F2). rewrite Ek in Ek1. injection Ek1 as <-. assert (HY := Forall_inv F2). unfold kis in HY. destruct (k_key y) as [ky|] eqn:Ey; [|destruct HY]. unfold entries. cbn [infos]. rewrite infos_plugl. cbn [infos app]. rewrite (next_at _ x y _ key ky); auto.
      + destruct (NT2 ltac:(discriminate) (N l i (moved y x) (plugl fs S))) as [X1 X2]. rewrite X1, X2, HR. split; [reflexivity|]. specialize (NR ltac:(discriminate)). apply Z.eqb_neq in NR. rewrite NR. reflexivity.
      + destruct (NT2 ltac:(discriminate) (N l i (moved y x) (plugl fs S))) as [X1 X2]. rewrite X1, X2, HR. split; [reflexivity|]. specialize (NR ltac:(discriminate)). apply Z.eqb_neq in NR. rewrite NR. reflexivity.
  Qed.
  Lemma hg_delete b T s k : hgood b T s -> may_delete s k = true -> exists b' T', delete b k = Ret (b', is_key (s_ents s) k) /\ b_os b' = b_os b /\
    hgood b' T' (mkbmap (take_out k (s_ents s)) (s_used s) (s_newest s) (if k =? s_rootk s then match next_key (s_ents s) k with Some k' => k' | None => k end else s_rootk s)).
  Proof.
    intros G HM. assert (RIN := rootk_in _ _ _ G). assert (G0 := G). destruct G as [GD GH GO GE GS GI GU GN GK GR]. destruct (search_ok b T k GD (o_at _ _ GH) GO GE) as (c & S0 & _ & E0 & ET & [P1 P2] & HS). unfold delete. destruct HS as [->|(l & i & x & r & -> & Ek)].
    - cbn [root] in E0. unfold delete_info. rewrite E0. cbn [bind is_none negb].
      assert (EI : is_key (s_ents s) k = false) by (rewrite <- GI; unfold entries; rewrite ET, infos_plug; rewrite is_key_at by assumption; reflexivity). rewrite EI. exists b, T. split; [reflexivity|]. split; [reflexivity|].
      assert (NK : k <> s_rootk s) by (intros X; rewrite <- X, EI in RIN; discriminate). apply Z.eqb_neq in NK. rewrite NK. replace (take_out k (s_ents s)) with (s_ents s); [destruct s; exact G0|]. symmetry. apply filter_all. apply Forall_forall. intros e He. unfold is_key in EI. destruct (Z.eqb_spec (fst e) k) as [X|]; [|reflexivity]. exfalso. rewrite <- not_true_iff_false in EI. apply EI. apply existsb_exists. exists e. split; [exact He|]. apply Z.eqb_eq. exact X.
    - cbn [root] in E0.
      assert (EL : infos T = (cl c ++ infos l) ++ [x] ++ (infos r ++ cr c)) by (rewrite ET, infos_plug; cbn [infos app]; rewrite <- !app_assoc; reflexivity).
      assert (GM := GO). rewrite EL in GM. cbn [app] in GM. apply ordered_mid in GM as (O1 & O2 & k1 & Ek1 & F2 & F3). rewrite Ek in Ek1. injection Ek1 as <-.
      assert (EI : is_key (s_ents s) k = true) by (rewrite <- GI; unfold entries; rewrite EL, is_key_at by assumption; cbn [map existsb]; rewrite (fst_entry x k Ek), Z.eqb_refl; reflexivity). rewrite EI.
      unfold may_delete in HM. rewrite EI in HM. cbn [negb orb] in HM. rewrite !andb_true_iff in HM. destruct HM as (((HM1 & HM2) & HM3) & HM4). apply Z.leb_le in HM4.
      assert (LN : len (s_ents s) = nodes T) by (rewrite <- GI; apply len_entries). rewrite LN in HM4. assert (HCAP := o_cap _ _ GH).
      assert (TOP : c = Top -> l <> E /\ r <> E).
      { intros ->. rewrite ET in GK. cbn [plug rkey] in GK. rewrite Ek in GK. injection GK as GK. rewrite <- GK, Z.eqb_refl in HM3. cbn [negb orb] in HM3. apply andb_true_iff in HM3 as [M1 M2]. rewrite <- GI in M1, M2. unfold entries in M1, M2. rewrite EL in M1, M2. cbn [cl cr app] in *. rewrite app_nil_r in *. rewrite !map_app, existsb_app in M1, M2. cbn [map existsb] in M1, M2. rewrite (fst_entry x k Ek), Z.ltb_irrefl in M1, M2. cbn [orb] in M1, M2.
        assert (Q : forall (f : Z * option D -> bool) l0, Forall (fun e => f e = false) l0 -> existsb f l0 = false) by (intros f; induction 1 as [|e l0 H _ IH]; cbn; [reflexivity|]; rewrite H; exact IH).
        split; intros ->; cbn [infos] in *.
        - cbn [map existsb orb] in M1. rewrite (Q _ (map entry (infos r))) in M1; [discriminate|]. eapply entry_all; [exact F3|]. cbn. intros; lia.
        - cbn [map existsb] in M2. rewrite orb_false_r in M2. rewrite (Q _ (map entry (infos l))) in M2; [discriminate|]. eapply entry_all; [exact F2|]. cbn. intros; lia. }
      destruct (o_delete_strong b T k c l i x r GD (holed_slim _ _ GH) ltac:(lia) E0 ET TOP) as (b' & c1 & S & c' & j & E1 & TK & CZ & SP & (T1 & T2 & T3 & T4 & T5 & T6) & HG). rewrite E1. cbn [bind is_none negb].
      assert (GO' := GO). rewrite ET in GO'. assert (EN1 := taken_ents _ _ _ _ _ _ _ k TK Ek GO'). assert (NN := taken_nodes _ _ _ _ _ _ _ TK).
      assert (EN2 : ents (plug c' S) = ents (plug c1 S)). { destruct (csim_ents _ _ (cz_sim _ _ CZ)) as [X1 X2]. unfold ents. rewrite !infos_plug, !map_app. rewrite X1, X2. reflexivity. }
      assert (NN2 := nodes_ents _ _ EN2). rewrite <- ET in NN, EN1, GO'. assert (EN3 : ents (plug c' S) = without k (ents T)) by congruence.
      assert (OO : ordered (infos (plug c' S))) by (apply (ordered_without k (infos T)); assumption).
      destruct (gone_zk _ _ _ _ _ _ _ _ k HG Ek ltac:(rewrite <- ET; exact GO)) as (kj & J1 & J2 & J3). rewrite <- ET in J1, J2, J3. rewrite GI in J2.
      assert (NK : s_newest s <> k) by (apply negb_true_iff, Z.eqb_neq in HM1; congruence).
      assert (NJ : s_newest s <> kj). { destruct J2 as [->|J2]; [exact NK|]. intros X. rewrite J2, <- X in HM2. cbn [oeqb] in HM2. rewrite Z.eqb_refl in HM2. discriminate. }
      assert (LJ : a_last (b_arr b') = b_size b - 1). { rewrite T5. unfold last_after. rewrite (o_last _ _ GH). destruct (Z.eqb_spec (b_size b - 1) j) as [X|]; [|reflexivity]. exfalso. rewrite X in GN. assert (Some kj = Some (s_newest s)) by (eapply zk_fun; [|exact J1|exact GN]; apply (o_at _ _ GH)). congruence. }
      destruct (gone_root _ _ _ _ _ _ _ _ c' k s HG CZ Ek ltac:(rewrite <- ET; exact GO) ltac:(rewrite <- ET; exact GK) ltac:(rewrite <- ET; exact GI)) as [R1 R2]. rewrite <- ET in R1.
      exists b', (plug c' S). split; [reflexivity|]. split; [exact T3|]. pose proof (nodes_nonneg T).
      split; cbn [s_ents s_used s_newest s_rootk]; [unfold default in *; congruence| |exact OO| | | |congruence| |exact R2|].
      + constructor; rewrite ?T4, ?T1; try (apply GH); [apply (sl_at _ _ SP)|apply (sl_num _ _ SP)|exact LJ|intros z Hz; apply (sl_idx _ _ SP) in Hz; lia|lia].
      + intros X. rewrite X in NN2. cbn [nodes] in NN2. lia.
      + intros HO. rewrite T3 in HO. specialize (GS HO). rewrite ET in GS. destruct (gone_sized _ _ _ _ _ _ _ _ HG GS). apply T6; assumption.
      + apply okeys_inj. unfold take_out. rewrite <- without_okeys, <- GI. rewrite <- (ents_okeys T GO), <- (ents_okeys (plug c' S) OO). exact EN3.
      + rewrite T4. destruct (cz_zk _ _ CZ) as [Z1 Z2]. rewrite (zk_plug c' S), Z1, Z2, <- zk_plug. apply J3; assumption.
      + assert (X := sl_at _ _ SP). destruct X as (_ & _ & ->). rewrite R1. rewrite <- GR. symmetry. apply (o_at _ _ GH).
  Qed.
  Lemma hg_run ops : forall b T s s' fs, hgood b T s -> bmap_run s ops = Some (s', fs) -> exists b' T', perform b ops = Ret (b', fs) /\ hgood b' T' s' /\ b_os b' = b_os b.
  Proof.
    induction ops as [|o ops IH]; intros b T s s' fs G; cbn [bmap_run perform]; [intros [= <- <-]; exists b, T; auto|]. destruct o as [k d|k]; cbn [bmap_step].
    - destruct (hg_insert b T s k d G) as (b1 & T1 & E1 & O1 & G1). rewrite E1. cbn [bind]. destruct (bmap_run _ ops) as [[s2 f2]|] eqn:E2; [|discriminate]. intros [= <- <-]. destruct (IH _ _ _ _ _ G1 E2) as (b2 & T2 & E3 & G3 & O3). exists b2, T2. cbn [app]. split; [exact E3|]. split; [exact G3|congruence].
    - destruct (may_delete s k) eqn:EM; [|discriminate]. destruct (hg_delete b T s k G EM) as (b1 & T1 & E1 & O1 & G1). rewrite E1. cbn [bind]. destruct (bmap_run _ ops) as [[s2 f2]|] eqn:E2; [|discriminate]. intros [= <- <-]. destruct (IH _ _ _ _ _ G1 E2) as (b2 & T2 & E3 & G3 & O3). rewrite E3. cbn [bind app]. exists b2, T2. split; [reflexivity|]. split; [exact G3|congruence].
  Qed.
End Hist3.
