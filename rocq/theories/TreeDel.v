(** Proofs: BinarySearchTree.delete while the node array is not compacted. Parent links are ignored: delete does not keep them. *)
From Coq Require Import Sorted.
From Verif Require Import Base TreeModel TreeProofs TreeRotate TreeBst TreeTrav.

Section Del.
  Context {D : Type}.
  Notation info := (info D). Notation node := (node D). Notation mem := (mem D). Notation bst := (bst D). Notation bt := (bt D). Notation ctx := (ctx D).

  Definition wcell (m : mem) (i : Z) : option (info * option Z * option Z) := option_map (fun n => (n_inf n, n_left n, n_right n)) (cell m i).
  Fixpoint wrep (m : mem) (T : bt) : Prop := match T with E => True | N l i x r => wcell m i = Some (x, root l, root r) /\ wrep m l /\ wrep m r end.
  Fixpoint wcrep (m : mem) (c : ctx) (h : option Z) : Prop :=
    match c with
    | Top => True
    | CL c i x r => wcell m i = Some (x, h, root r) /\ wrep m r /\ wcrep m c (Some i)
    | CR c l i x => wcell m i = Some (x, root l, h) /\ wrep m l /\ wcrep m c (Some i)
    end.
  Definition wtree (m : mem) (rt : option Z) (T : bt) : Prop := wrep m T /\ NoDup (idx T) /\ rt = root T.
  Lemma wcell_inv m i x l r : wcell m i = Some (x, l, r) -> exists p, cell m i = Some (mknode x l r p).
  Proof. unfold wcell. destruct (cell m i) as [[a b c d]|]; cbn [option_map n_inf n_left n_right]; intros [= -> -> ->]. eauto. Qed.
  Lemma wcell_of m i x l r p : cell m i = Some (mknode x l r p) -> wcell m i = Some (x, l, r).
  Proof. unfold wcell. intros ->. reflexivity. Qed.
  Lemma rep_wrep m T : forall p, rep m T p -> wrep m T.
  Proof. induction T as [|l IHl i x r IHr]; intros p; cbn [rep wrep]; [auto|]. intros (A & B & C). split; [apply (wcell_of _ _ _ _ _ _ A)|]. eauto. Qed.
  Lemma tree_wtree m rt T : tree_at m rt T -> wtree m rt T.
  Proof. intros (A & B & C). split; [apply (rep_wrep _ _ _ A)|auto]. Qed.
  Lemma wrep_plug m c : forall T, wrep m (plug c T) <-> wcrep m c (root T) /\ wrep m T.
  Proof. induction c as [|c IH i x r|c IH l i x]; intros T; cbn [plug wcrep]; [tauto|..]; rewrite IH; cbn [wrep root]; tauto. Qed.
  Lemma wrep_ext m m' T : (forall i, In i (idx T) -> wcell m' i = wcell m i) -> wrep m T -> wrep m' T.
  Proof.
    induction T as [|l IHl i x r IHr]; intros H; cbn [wrep idx] in *; [tauto|]. intros (A & B & C).
    split; [rewrite H by (apply in_or_app; right; left; reflexivity); exact A|]. split; [apply IHl|apply IHr]; try assumption; intros k Hk; apply H; apply in_or_app; [left; exact Hk|right; right; exact Hk].
  Qed.
  Lemma wcrep_ext m m' c : forall h, (forall i, In i (cidx c) -> wcell m' i = wcell m i) -> wcrep m c h -> wcrep m' c h.
  Proof.
    induction c as [|c IH i x r|c IH l i x]; intros h H; cbn [wcrep cidx] in *; [tauto|..]; intros (A & B & C).
    - split; [rewrite H by (left; reflexivity); exact A|]. split; [eapply wrep_ext; [|exact B]; intros k Hk; apply H; right; apply in_or_app; left; exact Hk|].
      apply IH; [|exact C]. intros k Hk. apply H. right. apply in_or_app. right. exact Hk.
    - split; [rewrite H by (apply in_or_app; right; left; reflexivity); exact A|]. split; [eapply wrep_ext; [|exact B]; intros k Hk; apply H; apply in_or_app; left; exact Hk|].
      apply IH; [|exact C]. intros k Hk. apply H. apply in_or_app. right. right. exact Hk.
  Qed.
  Lemma wsub (m : mem) rt c l i x r : wtree m rt (plug c (N l i x r)) -> exists p, cell m i = Some (mknode x (root l) (root r) p).
  Proof. intros (HR & _). apply wrep_plug in HR as (_ & A & _). apply wcell_inv. exact A. Qed.
  Lemma wnodes_mem m T : wrep m T -> NoDup (idx T) -> nodes T <= len m.
  Proof.
    intros HR ND. rewrite nodes_len. assert (incl (idx T) (zrange 0 (len m))).
    { intros i Hi. apply zrange_in. assert (exists n, cell m i = Some n) as (n & Hn). { clear ND. induction T as [|l IHl j x r IHr]; [destruct Hi|]. destruct HR as (A & B & C). cbn [idx] in Hi. apply in_app_or in Hi as [Hi|[<-|Hi]]; auto. destruct (wcell_inv _ _ _ _ _ A) as (p & Hp). eauto. }
      apply (cell_inb _ _ _ Hn). }
    apply NoDup_incl_length in H; [|exact ND]. rewrite zrange_length in H. unfold len in *. lia.
  Qed.
  Lemma wfuel (m : mem) rt T : wtree m rt T -> (Z.to_nat (nodes T) < fuel m)%nat.
  Proof. intros (HR & ND & _). assert (H := wnodes_mem m T HR ND). unfold fuel, len in *. lia. Qed.

  (** ** in-order traversal and search *)
  Definition wfrm_ok (m : mem) (f : frm) : Prop := let '(i, x, r) := f in (exists l, wcell m i = Some (x, l, root r)) /\ wrep m r.
  Lemma win_order (m : mem) T i : wrep m T -> NoDup (idx T) -> root T = Some i -> in_order m (Some i) = Ret (infos T).
  Proof.
    intros HR ND HI. assert (W : wp (in_order m (Some i)) (fun v => v = infos T)).
    { unfold in_order. eapply (wp_while_g (fun n st => let '(s, nd, v) := st in exists (S : bt) fs, nd = root S /\ s = map fidx fs /\ wrep m S /\ Forall (wfrm_ok m) fs /\ v ++ infos S ++ concat (map fout fs) = infos T /\ n = Z.to_nat (2 * nodes S + fmeas fs))).
      - intros n [[s nd] v] (S & fs & -> & -> & HS & F & Ev & ->). pose proof (fmeas_nonneg fs). destruct S as [|l j x r]; cbn [root].
        + destruct fs as [|[[j x] r] fs]; cbn [map].
          * cbn [wp]. cbn [infos map concat app] in Ev. rewrite app_nil_r in Ev. exact Ev.
          * inversion F as [|? ? Hf FT]; subst. cbn [wfrm_ok] in Hf. destruct Hf as [(ll & A) B]. destruct (wcell_inv _ _ _ _ _ A) as (q & A'). cbn [fidx]. rewrite (tget_ok _ _ _ A'). cbn [bind n_right n_inf wp]. pose proof (nodes_nonneg r). pose proof (fmeas_nonneg fs).
            eexists. split; [|exists r, fs; split; [reflexivity|]; split; [reflexivity|]; split; [exact B|]; split; [exact FT|]; split; [|reflexivity]].
            -- cbn [fmeas nodes]. lia.
            -- rewrite <- Ev. cbn [infos map concat fout app]. rewrite <- ?app_assoc. cbn [app]. rewrite <- ?app_assoc. reflexivity.
        + destruct HS as (A & B & C). destruct (wcell_inv _ _ _ _ _ A) as (q & A'). rewrite (tget_ok _ _ _ A'). cbn [bind n_left wp]. pose proof (nodes_nonneg l). pose proof (nodes_nonneg r).
          eexists. split; [|exists l, ((j, x, r) :: fs); split; [reflexivity|]; split; [reflexivity|]; split; [exact B|]; split; [|split; [|reflexivity]]].
          * cbn [fmeas nodes]. lia.
          * constructor; [split; [eauto|exact C]|exact F].
          * rewrite <- Ev. cbn [infos map concat fout app]. rewrite <- ?app_assoc. cbn [app]. rewrite <- ?app_assoc. reflexivity.
      - exists T, []. rewrite HI. cbn [map concat infos app]. rewrite app_nil_r. split; [reflexivity|]. split; [reflexivity|]. split; [exact HR|]. split; [constructor|]. split; [reflexivity|reflexivity].
      - assert (H := wnodes_mem m T HR ND). cbn [fmeas]. unfold fuel, len in *. lia. }
    apply wp_ex in W as (v & E1 & ->). exact E1.
  Qed.
  Lemma wsearch b T key : default b -> wtree (b_mem b) (b_root b) T -> ordered (infos T) -> T <> E ->
    exists c S, search b key = Ret (root S) /\ search_parent b key = Ret (root S, cpar c) /\ at_key key T c S.
  Proof.
    intros HD HT HO HE.
    assert (W : wp (search_loop b key) (fun r => exists c S, r = (root S, cpar c) /\ at_key key T c S)).
    { unfold search_loop. eapply (wp_while_g (fun n s => exists c S, s = (root S, cpar c) /\ T = plug c S /\ path_to key c /\ n = Z.to_nat (nodes S))).
      - intros n s (c & S & -> & ET & HP & ->). destruct S as [|l i x r]; cbn [root].
        + cbn [wp]. exists c, E. split; [reflexivity|]. split; [exact ET|]. auto.
        + rewrite ET in HT, HO. destruct (wsub _ _ _ _ _ _ _ HT) as (p & HC). rewrite (tget_ok _ _ _ HC). cbn [bind n_left n_right]. unfold n_key. cbn [n_inf].
          destruct (ordered_here _ _ _ _ _ HO) as (k & Ek & _ & _ & F1 & F2). rewrite Ek. cbn [oeqb]. destruct (Z.eqb_spec k key) as [->|NE].
          * cbn [wp]. exists c, (N l i x r). split; [reflexivity|]. split; [exact ET|]. split; [exact HP|]. right. exists l, i, x, r. auto.
          * unfold comparator. rewrite HD. cbn [bind wp]. pose proof (nodes_nonneg l). pose proof (nodes_nonneg r). destruct (Z.ltb_spec key k) as [L|L].
            -- exists (Z.to_nat (nodes l)). split; [cbn [nodes]; lia|]. exists (CL c i x r), l. split; [reflexivity|]. split; [exact ET|]. split; [eapply path_left; eassumption|reflexivity].
            -- exists (Z.to_nat (nodes r)). split; [cbn [nodes]; lia|]. exists (CR c l i x), r. split; [reflexivity|]. split; [exact ET|]. split; [eapply path_right; try eassumption; lia|reflexivity].
      - exists Top, T. destruct HT as (_ & _ & ->). split; [reflexivity|]. split; [reflexivity|]. split; [split; constructor|reflexivity].
      - apply (wfuel _ _ _ HT). }
    apply wp_ex in W as (q & EL & c & S & -> & HK). exists c, S. unfold search, search_parent. rewrite EL.
    destruct T as [|l i x r]; [congruence|]. destruct (wsub _ _ Top _ _ _ _ HT) as (p & HC). destruct HT as (_ & _ & ->). cbn [root]. rewrite (tget_ok _ _ _ HC). cbn [bind]. destruct (ordered_here Top _ _ _ _ HO) as (k & Ek & _). unfold n_key. cbn [n_inf]. rewrite Ek. auto.
  Qed.

  (** ** memory updates *)
  Definition wframe (m m' : mem) (l : list Z) : Prop := len m' = len m /\ forall i, ~ In i l -> wcell m' i = wcell m i.
  Lemma frame_wframe m m' l : frame m m' l -> wframe m m' l.
  Proof. intros [A B]. split; [exact A|]. intros i Hi. unfold wcell. rewrite B by exact Hi. reflexivity. Qed.
  Lemma set_parent_w m i v n : cell m i = Some n -> exists m', tmod m (Some i) (set_parent v) = Ret m' /\ wframe m m' [].
  Proof.
    intros H. destruct (tmod_step m i (set_parent v) n H) as (m' & E1 & H1 & F). exists m'. split; [exact E1|]. split; [apply F|]. intros k _. destruct (Z.eq_dec k i) as [->|NE].
    - unfold wcell. rewrite H, H1. reflexivity.
    - apply (frame_wframe _ _ _ F). intros [X|[]]. congruence.
  Qed.
  (** the parent's link to a subtree *)
  Lemma wrelink m c j k : wcrep m c (Some j) -> NoDup (cidx c) -> ~ In j (cidx c) -> c <> Top ->
    exists m', relink m (cpar c) (Some j) k = Ret m' /\ wcrep m' c k /\ wframe m m' (cidx c).
  Proof.
    destruct c as [|c i x r|c l i x]; cbn [cpar wcrep cidx]; intros H ND NJ NT; [congruence|..].
    - destruct H as (A & B & C). rewrite nodup_cnt in ND. destruct (wcell_inv _ _ _ _ _ A) as (p & A'). unfold relink. rewrite (tget_ok _ _ _ A'). cbn [bind n_left oeqb]. rewrite Z.eqb_refl.
      destruct (tmod_step m i (set_left k) _ A') as (m' & E1 & H1 & F). apply frame_wframe in F. exists m'. split; [exact E1|]. split.
      + split; [apply (wcell_of _ _ _ _ _ _ H1)|]. split; [eapply wrep_ext; [|exact B]|eapply wcrep_ext; [|exact C]]; intros y Hy; apply F; intros [<-|[]]; dj ND.
      + split; [apply F|]. intros y Hy. apply F. intros [<-|[]]. apply Hy. left. reflexivity.
    - destruct H as (A & B & C). rewrite nodup_cnt in ND. destruct (wcell_inv _ _ _ _ _ A) as (p & A'). unfold relink. rewrite (tget_ok _ _ _ A'). cbn [bind n_left].
      replace (oeqb (root l) (Some j)) with false; [|symmetry; destruct (oeqb_spec (root l) (Some j)) as [X|]; [|reflexivity]; apply root_In in X; exfalso; apply NJ, in_or_app; left; exact X].
      destruct (tmod_step m i (set_right k) _ A') as (m' & E1 & H1 & F). apply frame_wframe in F. exists m'. split; [exact E1|]. split.
      + split; [apply (wcell_of _ _ _ _ _ _ H1)|]. split; [eapply wrep_ext; [|exact B]|eapply wcrep_ext; [|exact C]]; intros y Hy; apply F; intros [<-|[]]; dj ND.
      + split; [apply F|]. intros y Hy. apply F. intros [<-|[]]. apply Hy. apply in_or_app. right. left. reflexivity.
  Qed.
  (** bypassing a node: its place is taken by a subtree S of it *)
  Lemma wbypass m rt c l j y r S : wtree m rt (plug c (N l j y r)) -> c <> Top -> wrep m S -> (forall z, (cnt z (idx S) <= cnt z (idx l) + cnt z (idx r))%nat) ->
    exists m', relink m (cpar c) (Some j) (root S) = Ret m' /\ wtree m' rt (plug c S) /\ wframe m m' (cidx c) /\ wrep m' S.
  Proof.
    intros (HR & ND & ->) NT HS HC. apply wrep_plug in HR as (C & _). destruct (nodup_sub _ _ ND) as [NDc _]. assert (ND' := ND). rewrite nodup_cnt in ND'.
    destruct (wrelink m c j (root S) C NDc) as (m' & E1 & C' & F); [|exact NT|]. { intros H. specialize (ND' j). rewrite cnt_plug in ND'. cbn [idx] in ND'. rewrite cnt_app, cnt_cons, Z.eqb_refl in ND'. apply cnt_In in H. lia. }
    assert (HS' : wrep m' S). { eapply wrep_ext; [|exact HS]. intros i Hi. apply F. intros X. specialize (ND' i). specialize (HC i). rewrite cnt_plug in ND'. cbn [idx] in ND'. rewrite cnt_app, cnt_cons in ND'. rewrite cnt_In in *. lia. }
    exists m'. split; [exact E1|]. split; [split; [|split]|auto].
    - apply wrep_plug. auto.
    - apply nodup_cnt. intros z. specialize (ND' z). specialize (HC z). rewrite cnt_plug in *. cbn [idx] in ND'. rewrite cnt_app, cnt_cons in ND'. lia.
    - apply root_plug. congruence.
  Qed.

  (** ** removing a cell *)
  Record sparse (b : bst) (T : bt) : Prop := {
    s_at : wtree (b_mem b) (b_root b) T;
    s_num : a_num (b_arr b) = nodes T;
    s_idx : forall i, In i (idx T) -> 0 <= i <= a_last (b_arr b) }.
  Lemma aft_delete_ok (a : aft D) i n : cell (a_data a) i = Some n -> i <= a_last a -> len (a_data a) <= 4 * (a_num a - 1) ->
    exists m', aft_delete a (Some i) = Ret (mkaft m' (a_num a - 1) (if a_last a =? i then a_last a - 1 else a_last a), None) /\ wframe (a_data a) m' [i].
  Proof.
    intros HC HI HL. unfold aft_delete. assert (HB := cell_inb _ _ _ HC). unfold inb in HB. replace ((i <=? a_last a) && (0 <=? i)) with true by lia.
    assert (EA : aget (a_data a) i = Ret (Some n)). { unfold cell in HC. destruct (aget (a_data a) i) as [[q|]| |]; congruence. }
    rewrite EA. cbn [bind]. rewrite aset_ok by lia. cbn [bind]. unfold aft_modify. cbn [a_num a_data a_last]. rewrite len_zupd. replace (4 * (a_num a - 1) <? len (a_data a)) with false by lia.
    exists (zupd (a_data a) i None). split; [reflexivity|]. apply frame_wframe, upd_frame. exact HB.
  Qed.
  Lemma wtree_frame m m' l rt T : wtree m rt T -> wframe m m' l -> (forall i, In i l -> ~ In i (idx T)) -> wtree m' rt T.
  Proof. intros (A & B & C) F H. split; [|auto]. eapply wrep_ext; [|exact A]. intros i Hi. apply F. intros X. exact (H i X Hi). Qed.
  (** the end of every case: the cell j of a node no longer in the tree is emptied *)
  Lemma drop_ok (b : bst) T T' m j n : sparse b T -> wtree m (b_root b) T' -> len m = len (b_mem b) -> cell m j = Some n -> In j (idx T) -> ~ In j (idx T') -> (forall i, In i (idx T') -> In i (idx T)) -> nodes T' = nodes T - 1 ->
    len (b_mem b) <= 4 * (nodes T - 1) ->
    exists arr, aft_delete (mkaft m (a_num (b_arr b)) (a_last (b_arr b))) (Some j) = Ret (arr, None) /\ sparse (set_arr b arr) T' /\ len (a_data arr) = len (b_mem b).
  Proof.
    intros SP HW HL HC HJ HN HI EN HF. assert (SN := s_num _ _ SP). assert (SI := s_idx _ _ SP).
    destruct (aft_delete_ok (mkaft m (a_num (b_arr b)) (a_last (b_arr b))) j n HC) as (m' & E1 & F); cbn [a_data a_num a_last] in *; [apply SI; exact HJ|rewrite HL, SN; exact HF|].
    eexists. split; [exact E1|]. split; [|cbn [a_data]; rewrite (proj1 F); exact HL]. constructor; cbn [set_arr b_mem b_arr b_root a_data a_num a_last].
    - eapply wtree_frame; [exact HW|exact F|]. intros i [<-|[]]. exact HN.
    - rewrite SN, EN. reflexivity.
    - intros i Hi. assert (H1 := SI i (HI i Hi)). destruct (Z.eqb_spec (a_last (b_arr b)) j) as [Ej|]; [|exact H1]. assert (i <> j) by (intros ->; contradiction). lia.
  Qed.

  (** leftmost path of the right subtree *)
  Fixpoint clefts (c : ctx) (fs : list (Z * info * bt)) : ctx := match fs with [] => c | (i, x, r) :: fs' => CL (clefts c fs') i x r end.
  Fixpoint plugl (fs : list (Z * info * bt)) (S : bt) : bt := match fs with [] => S | (i, x, r) :: fs' => plugl fs' (N S i x r) end.
  Lemma plug_clefts c fs : forall S, plug (clefts c fs) S = plug c (plugl fs S).
  Proof. induction fs as [|[[i x] r] fs IH]; intros S; cbn [clefts plugl plug]; [reflexivity|apply IH]. Qed.
  Lemma clefts_top c fs : c <> Top -> clefts c fs <> Top.
  Proof. destruct fs as [|[[i x] r] fs]; cbn [clefts]; [auto|discriminate]. Qed.
  Definition inords (fs : list (Z * info * bt)) : list info := concat (map (fun f => snd (fst f) :: infos (snd f)) fs).
  Lemma infos_plugl fs : forall S, infos (plugl fs S) = infos S ++ inords fs.
  Proof. induction fs as [|[[i x] r] fs IH]; intros S; cbn [plugl]; unfold inords; cbn [map concat fst snd]; [rewrite app_nil_r; reflexivity|]. rewrite IH. cbn [infos]. rewrite <- app_assoc. reflexivity. Qed.
  Lemma root_plugl fs S : fs <> [] -> forall S', root (plugl fs S') = root (plugl fs S).
  Proof. revert S. induction fs as [|[[i x] r] fs IH]; intros S HN S'; [congruence|]. cbn [plugl]. destruct fs as [|f fs]; [reflexivity|]. apply IH. discriminate. Qed.
  Lemma cnt_plugl z fs : forall S S', (cnt z (idx (plugl fs S)) + cnt z (idx S') = cnt z (idx (plugl fs S')) + cnt z (idx S))%nat.
  Proof. induction fs as [|[[i x] r] fs IH]; intros S S'; cbn [plugl]; [lia|]. specialize (IH (N S i x r) (N S' i x r)). cbn [idx] in IH. rewrite !cnt_app in IH. lia. Qed.
  Lemma nodes_plugl fs : forall S S', nodes (plugl fs S) + nodes S' = nodes (plugl fs S') + nodes S.
  Proof. induction fs as [|[[i x] r] fs IH]; intros S S'; cbn [plugl]; [lia|]. specialize (IH (N S i x r) (N S' i x r)). cbn [nodes] in IH. lia. Qed.

  (** the entries with the one of [key] left out *)
  Definition without (key : Z) (l : list (option Z * option D)) : list (option Z * option D) := filter (fun e => negb (oeqb (fst e) (Some key))) l.
  Lemma without_app key a b : without key (a ++ b) = without key a ++ without key b.
  Proof. apply filter_app. Qed.
  Lemma without_none key (l : list info) : Forall (kis (fun k => k <> key)) l -> without key (map ent l) = map ent l.
  Proof.
    induction 1 as [|x l Hx _ IH]; cbn [map]; [reflexivity|]. unfold without in *. cbn [filter]. change (fst (ent x)) with (k_key x). unfold kis in Hx. destruct (oeqb_spec (k_key x) (Some key)) as [Ek|]; cbn [negb]; [rewrite Ek in Hx; congruence|]. rewrite IH. reflexivity.
  Qed.
  Lemma without_mid key (a : list info) x b k : k_key x = Some key -> ordered (a ++ x :: b) -> k = key -> without key (map ent (a ++ x :: b)) = map ent (a ++ b).
  Proof.
    intros Ek HO _. apply ordered_mid in HO as (_ & _ & k' & Ek' & F1 & F2). rewrite Ek in Ek'. injection Ek' as <-. rewrite !map_app, without_app. cbn [map].
    rewrite (without_none key a) by (eapply kis_mono; [|exact F1]; intros z Hz; cbn beta in *; lia). f_equal. change (ent x :: map ent b) with ([ent x] ++ map ent b). rewrite without_app. rewrite (without_none key b) by (eapply kis_mono; [|exact F2]; intros z Hz; cbn beta in *; lia).
    unfold without. cbn [filter]. change (fst (ent x)) with (k_key x). rewrite Ek. cbn [oeqb]. rewrite Z.eqb_refl. reflexivity.
  Qed.

  Lemma ordered_filter f (l : list info) : ordered l -> ordered (filter f l).
  Proof.
    intros [H1 H2]. split.
    - rewrite Forall_forall in *. intros x Hx. apply filter_In in Hx as [Hx _]. auto.
    - clear H1. induction H2 as [|x l _ IH F]; cbn [filter]; [constructor|]. destruct (f x); [|exact IH]. constructor; [exact IH|]. rewrite Forall_forall in *. intros y Hy. apply filter_In in Hy as [Hy _]. auto.
  Qed.
  Lemma ordered_without key (l l' : list info) : ordered l -> map ent l' = without key (map ent l) -> ordered l'.
  Proof.
    intros HO HE. set (f := fun x : info => negb (oeqb (k_key x) (Some key))).
    assert (EF : map ent (filter f l) = without key (map ent l)). { clear. induction l as [|x l IH]; [reflexivity|]. unfold without in *. cbn [filter map]. change (fst (ent x)) with (k_key x). unfold f at 1. destruct (oeqb (k_key x) (Some key)); cbn [negb map]; rewrite IH; reflexivity. }
    apply (ordered_keys (filter f l)); [|apply ordered_filter; exact HO]. rewrite <- EF in HE. apply (f_equal (map fst)) in HE. rewrite !map_map in HE. symmetry. exact HE.
  Qed.
  Lemma cnt_sub c (T : bt) l i x r : T = plug c (N l i x r) -> In i (idx T).
  Proof. intros ->. rewrite cnt_In, cnt_plug. cbn [idx]. rewrite cnt_app, cnt_cons, Z.eqb_refl. lia. Qed.
  Lemma bypass_idx c (l : bt) j y r S : NoDup (idx (plug c (N l j y r))) -> (forall z, (cnt z (idx S) <= cnt z (idx l) + cnt z (idx r))%nat) ->
    ~ In j (idx (plug c S)) /\ (forall i, In i (idx (plug c S)) -> In i (idx (plug c (N l j y r)))).
  Proof.
    intros ND H. rewrite nodup_cnt in ND. split.
    - intros X. rewrite cnt_In, cnt_plug in X. specialize (ND j). specialize (H j). rewrite cnt_plug in ND. cbn [idx] in ND. rewrite cnt_app, cnt_cons, Z.eqb_refl in ND. lia.
    - intros i X. rewrite cnt_In, cnt_plug in *. specialize (H i). cbn [idx]. rewrite cnt_app, cnt_cons. lia.
  Qed.
  Lemma bind_ret {A B} (a : A) (f : A -> res B) : bind (Ret a) f = f a.
  Proof. reflexivity. Qed.
  Lemma wroot (b : bst) m T : wtree m (b_root b) T -> T <> E -> exists n, tget m (b_root b) = Ret n.
  Proof. intros HT HE. destruct T as [|l i x r]; [congruence|]. destruct (wsub _ _ Top _ _ _ _ HT) as (p & HC). destruct HT as (_ & _ & ->). cbn [root]. rewrite (tget_ok _ _ _ HC). eauto. Qed.
  Lemma plug_ne (c : ctx) (l : bt) i x r : plug c (N l i x r) <> E.
  Proof. intros X. apply (f_equal (@nodes D)) in X. pose proof (nodes_plug_le c (N l i x r)). cbn [nodes] in *. pose proof (nodes_nonneg l). pose proof (nodes_nonneg r). lia. Qed.
  Lemma plug_ne2 (c : ctx) (S : bt) : c <> Top -> plug c S <> E.
  Proof. destruct c; [congruence|..]; intros _; cbn [plug]; apply plug_ne. Qed.
  Lemma cpar_ne (c : ctx) : c <> Top -> exists j, cpar c = Some j.
  Proof. destruct c; [congruence|..]; intros _; cbn [cpar]; eauto. Qed.
  Lemma wpar (m : mem) c h : wcrep m c h -> c <> Top -> exists n, tget m (cpar c) = Ret n.
  Proof. destruct c; [congruence|..]; intros (A & _) _; cbn [cpar]; destruct (wcell_inv _ _ _ _ _ A) as (p & Hp); rewrite (tget_ok _ _ _ Hp); eauto. Qed.
  (** relink written as the code's conditional *)
  Lemma relink_unfold (m : mem) p j k : relink m p j k = (pn <- tget m p ;; if oeqb (n_left pn) j then tmod m p (set_left k) else tmod m p (set_right k)).
  Proof. reflexivity. Qed.

  Lemma wset_inf (m : mem) rt c l i x r (f : node -> node) y : wtree m rt (plug c (N l i x r)) -> (forall n, n_left (f n) = n_left n /\ n_right (f n) = n_right n) -> (forall n, n_inf n = x -> n_inf (f n) = y) ->
    exists m', tmod m (Some i) f = Ret m' /\ wtree m' rt (plug c (N l i y r)) /\ frame m m' [i].
  Proof.
    intros HW HF HY. destruct (wsub _ _ _ _ _ _ _ HW) as (p & HC). destruct HW as (HR & ND & ->). destruct (tmod_step m i f _ HC) as (m' & E1 & H1 & F). exists m'. split; [exact E1|]. split; [|exact F]. apply frame_wframe in F. assert (ND' := ND). rewrite nodup_cnt in ND'.
    apply wrep_plug in HR as (C & A & L & R). split; [|split].
    - apply wrep_plug. cbn [wrep root]. split; [eapply wcrep_ext; [|exact C]; intros k Hk; apply F; intros [<-|[]]; dj ND'|]. split; [|split; (eapply wrep_ext; [|eassumption]); intros k Hk; apply F; intros [<-|[]]; dj ND'].
      unfold wcell. rewrite H1. cbn [option_map]. destruct (HF (mknode x (root l) (root r) p)) as [-> ->]. rewrite HY by reflexivity. reflexivity.
    - eapply perm_cnt; [|exact ND]. intros z. rewrite !cnt_plug. reflexivity.
    - apply root_plug. reflexivity.
  Qed.
  Definition removed (b b' : bst) (T T' : bt) (key : Z) : Prop :=
    sparse b' T' /\ ents T' = without key (ents T) /\ T' <> E /\ nodes T' = nodes T - 1 /\ len (b_mem b') = len (b_mem b) /\ b_comp b' = b_comp b /\ b_os b' = b_os b.
  Lemma delete_present b T key c l i x r : default b -> b_os b = false -> sparse b T -> ordered (infos T) -> T <> E -> len (b_mem b) <= 4 * (nodes T - 1) ->
    search_parent b key = Ret (Some i, cpar c) -> T = plug c (N l i x r) -> k_key x = Some key ->
    exists b' T', delete b key = Ret (b', true) /\ removed b b' T T' key.
  Proof.
    intros HD HOS SP HO HE HL ES ET Ek. assert (HW := s_at _ _ SP). rewrite ET in HW. destruct (wsub _ _ _ _ _ _ _ HW) as (pp & HC).
    unfold delete, delete_info. rewrite ES. cbn [bind]. rewrite (tget_ok _ _ _ HC). cbn [bind n_left n_right].
    assert (UP : forall (b1 : bst) a, b_os b1 = false -> update_size b1 a = Ret b1) by (intros b1 a H; unfold update_size; rewrite H; reflexivity).
    assert (NDT := proj1 (proj2 HW)). assert (HWR := proj1 HW). apply wrep_plug in HWR as (HCR & _ & HL' & HR').
    assert (EE : without key (ents T) = map ent (cl c ++ infos l ++ infos r ++ cr c)).
    { unfold ents. rewrite ET, infos_plug. cbn [infos]. rewrite ET, infos_plug in HO. cbn [infos] in HO. rewrite <- app_assoc in *. cbn [app] in *. rewrite (app_assoc (cl c)) in *. rewrite (without_mid key _ x _ key Ek HO eq_refl), <- app_assoc. reflexivity. }
    assert (IT := cnt_sub _ _ _ _ _ _ ET).
    (* a node other than the root with at most one child S *)
    assert (BYP : forall S, c <> Top -> wrep (b_mem b) S -> (forall z, (cnt z (idx S) <= cnt z (idx l) + cnt z (idx r))%nat) -> nodes S = nodes l + nodes r -> infos S = infos l ++ infos r ->
      exists m1, relink (b_mem b) (cpar c) (Some i) (root S) = Ret m1 /\ wtree m1 (b_root b) (plug c S) /\ len m1 = len (b_mem b) /\ (exists n, tget m1 (cpar c) = Ret n) /\ (exists n, tget m1 (b_root b) = Ret n) /\ wrep m1 S /\
        forall m2, wframe m1 m2 [] -> exists arr, aft_delete (mkaft m2 (a_num (b_arr b)) (a_last (b_arr b))) (Some i) = Ret (arr, None) /\ removed b (set_arr b arr) T (plug c S) key).
    { intros S NT HS HCS HNS HIS. destruct (wbypass _ _ _ _ _ _ _ S HW NT HS HCS) as (m1 & E1 & HW1 & F1 & HS1). exists m1. split; [exact E1|]. split; [exact HW1|]. split; [apply F1|].
      destruct (bypass_idx c l i x r S NDT HCS) as [NI II].
      assert (NIC : ~ In i (cidx c)). { intros X. rewrite nodup_cnt in NDT. specialize (NDT i). rewrite cnt_plug in NDT. cbn [idx] in NDT. rewrite cnt_app, cnt_cons, Z.eqb_refl in NDT. apply cnt_In in X. lia. }
      split; [assert (HWR1 := proj1 HW1); apply wrep_plug in HWR1 as (Q & _); apply (wpar _ _ _ Q NT)|]. split; [apply (wroot b m1 _ HW1); apply plug_ne2; exact NT|]. split; [exact HS1|].
      intros m2 F2. assert (EW : wcell m2 i = Some (x, root l, root r)) by (rewrite (proj2 F2) by auto; rewrite (proj2 F1) by exact NIC; apply (wcell_of _ _ _ _ _ _ HC)). destruct (wcell_inv _ _ _ _ _ EW) as (p2 & EC2).
      destruct (drop_ok b T (plug c S) m2 i (mknode x (root l) (root r) p2) SP) as (arr & E2 & SP2 & L2).
      - eapply wtree_frame; [exact HW1|exact F2|]. intros ? [].
      - rewrite (proj1 F2). apply F1.
      - exact EC2.
      - exact IT.
      - exact NI.
      - rewrite ET. exact II.
      - rewrite ET. pose proof (nodes_plug c S (N l i x r)) as Q. cbn [nodes] in Q. lia.
      - exact HL.
      - exists arr. split; [exact E2|]. split; [exact SP2|]. split; [rewrite EE; unfold ents; rewrite infos_plug, HIS, <- !app_assoc; reflexivity|]. split; [apply plug_ne2; exact NT|]. split; [rewrite ET; pose proof (nodes_plug c S (N l i x r)) as Q; cbn [nodes] in Q; lia|]. split; [exact L2|]. auto. }
    destruct l as [|ll li lx lr], r as [|rl ri rx rr]; cbn [root].
    - (* leaf *) destruct c as [|c0 j y q|c0 q j y] eqn:Ec; [exfalso; rewrite ET in HL; cbn [plug nodes] in HL; pose proof (wnodes_mem _ _ (proj1 HW) NDT) as Q; cbn [plug nodes] in Q; lia|..]; rewrite <- Ec in *; (assert (NT : c <> Top) by (rewrite Ec; discriminate)).
      all: destruct (BYP E NT I ltac:(intros z; cbn [idx]; lia) eq_refl eq_refl) as (m1 & E1 & HW1 & L1 & (np & Ep) & (nr & Er) & _ & FIN); destruct (FIN m1 ltac:(split; auto)) as (arr & E2 & RM).
      all: destruct (cpar_ne c NT) as (jp & Ejp); rewrite Ejp in *; rewrite relink_unfold in E1; destruct (tget (b_mem b) (Some jp)) as [pn| |] eqn:Epn; cbn [bind] in E1; try discriminate; cbn [bind]; cbn [root] in E1; rewrite E1; cbn [bind set_mem b_mem b_arr a_data b_root a_num a_last]; rewrite Ep, Er; cbn [bind]; rewrite E2; unfold after_delete; cbn [bind];
        change (set_arr (mkbst (mkaft m1 (a_num (b_arr b)) (a_last (b_arr b))) (b_root b) (b_size b) (b_comp b) (b_os b)) arr) with (set_arr b arr); rewrite UP by exact HOS; cbn [bind is_none negb]; exists (set_arr b arr), (plug c E); auto.
    - (* right child only *) destruct c as [|c0 j y q|c0 q j y] eqn:Ec.
      + set (x' := with_key (k_key rx) (with_data (k_data rx) x)). cbn [plug cpar] in *. destruct (wcell_inv _ _ _ _ _ (proj1 HR')) as (pc & HCc). rewrite (tget_ok _ _ _ HCc). cbn [bind n_left n_right n_inf].
        assert (ERT : b_root b = Some i) by (apply HW). rewrite ERT. rewrite nodup_cnt in NDT. destruct HR' as (_ & HLL & HLR).
        match goal with |- context [tmod (b_mem b) (Some i) ?f] => destruct (tmod_step (b_mem b) i f _ HC) as (m1 & E1 & HC1 & F1) end. rewrite E1. cbn [bind set_mem b_mem b_arr a_data b_root a_num a_last]. unfold n_key in HC1. cbn [n_inf] in HC1. fold x' in HC1.
        assert (HW1 : wtree m1 (b_root b) (N rl i x' rr)).
        { split; [|split].
          - cbn [wrep]. split; [apply (wcell_of _ _ _ _ _ _ HC1)|]. apply frame_wframe in F1. split; (eapply wrep_ext; [|eassumption]); intros k Hk; apply F1; intros [<-|[]]; dj NDT.
          - apply nodup_cnt. intros z. specialize (NDT z). cbn [idx] in *. rewrite ?cnt_app, ?cnt_cons, ?cnt_nil in *. rewrite ?cnt_app, ?cnt_cons, ?cnt_nil in NDT. lia.
          - exact ERT. }
        assert (HCl : cell m1 ri = Some (mknode rx (root rl) (root rr) pc)) by (apply (frame_cell _ _ _ _ _ F1); [intros [<-|[]]; dj NDT|exact HCc]).
        rewrite ERT, (tget_ok _ _ _ HC1). cbn [bind].
        destruct (drop_ok b T (N rl i x' rr) m1 ri _ SP HW1 (proj1 F1) HCl) as (arr & E3 & SP3 & L3).
        { rewrite ET. rewrite cnt_In. cbn [idx]. rewrite ?cnt_app, ?cnt_cons, ?cnt_app, ?cnt_cons, Z.eqb_refl. lia. }
        { intros X. rewrite cnt_In in X. specialize (NDT ri). cbn [idx] in *. rewrite ?cnt_app, ?cnt_cons, ?cnt_nil in X. rewrite ?cnt_app, ?cnt_cons, ?cnt_nil in NDT. rewrite ?cnt_app, ?cnt_cons, ?cnt_nil in NDT. rewrite Z.eqb_refl in NDT. lia. }
        { intros k Hk. rewrite ET. rewrite cnt_In in *. cbn [idx] in *. rewrite ?cnt_app, ?cnt_cons, ?cnt_nil in *. rewrite ?cnt_app, ?cnt_cons, ?cnt_nil. lia. }
        { rewrite ET. cbn [nodes]. lia. }
        { exact HL. }
        rewrite E3. cbn [bind]. change (set_arr (set_mem b m1) arr) with (set_arr b arr). cbn [is_none negb].
        exists (set_arr b arr), (N rl i x' rr). split; [reflexivity|]. split; [exact SP3|]. split; [rewrite EE; unfold ents; cbn [cl cr infos app]; rewrite ?app_nil_r, ?map_app; cbn [map]; rewrite ?map_app; reflexivity|]. split; [discriminate|]. split; [rewrite ET; cbn [nodes]; lia|]. auto.
      + rewrite <- Ec in *. assert (NT : c <> Top) by (rewrite Ec; discriminate). destruct (BYP (N rl ri rx rr) NT HR' ltac:(intros z; cbn [idx]; rewrite ?cnt_nil; lia) ltac:(cbn [nodes]; lia) ltac:(rewrite ?app_nil_r; reflexivity)) as (m1 & E1 & HW1 & L1 & _ & _ & HS1 & FIN).
        destruct (wcell_inv _ _ _ _ _ (proj1 HS1)) as (pc & HCc). destruct (set_parent_w m1 _ (cpar c) _ HCc) as (m2 & E2 & F2). destruct (FIN m2 F2) as (arr & E3 & RM).
        assert (HW2 : wtree m2 (b_root b) (plug c (N rl ri rx rr))) by (eapply wtree_frame; [exact HW1|exact F2|intros ? []]).
        assert (X := proj1 HW2). apply wrep_plug in X as (X & _). destruct (wpar _ _ _ X NT) as (np & Ep). destruct (wroot b m2 _ HW2 (plug_ne2 _ _ NT)) as (nr & Er).
        destruct (cpar_ne c NT) as (jp & Ejp); rewrite Ejp in *. rewrite relink_unfold in E1. destruct (tget (b_mem b) (Some jp)) as [pn| |] eqn:Epn; cbn [bind] in E1; try discriminate. cbn [bind]. cbn [root] in E1. rewrite E1. cbn [bind]. rewrite E2. cbn [bind set_mem b_mem b_arr a_data b_root a_num a_last]. rewrite Ep, Er. cbn [bind]. rewrite E3. cbn [bind].
        change (set_arr (mkbst (mkaft m2 (a_num (b_arr b)) (a_last (b_arr b))) (b_root b) (b_size b) (b_comp b) (b_os b)) arr) with (set_arr b arr). rewrite UP by exact HOS. cbn [bind is_none negb]. exists (set_arr b arr), (plug c (N rl ri rx rr)). auto.
      + rewrite <- Ec in *. assert (NT : c <> Top) by (rewrite Ec; discriminate). destruct (BYP (N rl ri rx rr) NT HR' ltac:(intros z; cbn [idx]; rewrite ?cnt_nil; lia) ltac:(cbn [nodes]; lia) ltac:(rewrite ?app_nil_r; reflexivity)) as (m1 & E1 & HW1 & L1 & _ & _ & HS1 & FIN).
        destruct (wcell_inv _ _ _ _ _ (proj1 HS1)) as (pc & HCc). destruct (set_parent_w m1 _ (cpar c) _ HCc) as (m2 & E2 & F2). destruct (FIN m2 F2) as (arr & E3 & RM).
        assert (HW2 : wtree m2 (b_root b) (plug c (N rl ri rx rr))) by (eapply wtree_frame; [exact HW1|exact F2|intros ? []]).
        assert (X := proj1 HW2). apply wrep_plug in X as (X & _). destruct (wpar _ _ _ X NT) as (np & Ep). destruct (wroot b m2 _ HW2 (plug_ne2 _ _ NT)) as (nr & Er).
        destruct (cpar_ne c NT) as (jp & Ejp); rewrite Ejp in *. rewrite relink_unfold in E1. destruct (tget (b_mem b) (Some jp)) as [pn| |] eqn:Epn; cbn [bind] in E1; try discriminate. cbn [bind]. cbn [root] in E1. rewrite E1. cbn [bind]. rewrite E2. cbn [bind set_mem b_mem b_arr a_data b_root a_num a_last]. rewrite Ep, Er. cbn [bind]. rewrite E3. cbn [bind].
        change (set_arr (mkbst (mkaft m2 (a_num (b_arr b)) (a_last (b_arr b))) (b_root b) (b_size b) (b_comp b) (b_os b)) arr) with (set_arr b arr). rewrite UP by exact HOS. cbn [bind is_none negb]. exists (set_arr b arr), (plug c (N rl ri rx rr)). auto.
    - (* left child only *) destruct c as [|c0 j y q|c0 q j y] eqn:Ec.
      + set (x' := with_key (k_key lx) (with_data (k_data lx) x)). cbn [plug cpar] in *. destruct (wcell_inv _ _ _ _ _ (proj1 HL')) as (pc & HCc). rewrite (tget_ok _ _ _ HCc). cbn [bind n_left n_right n_inf].
        assert (ERT : b_root b = Some i) by (apply HW). rewrite ERT. rewrite nodup_cnt in NDT. destruct HL' as (_ & HLL & HLR).
        match goal with |- context [tmod (b_mem b) (Some i) ?f] => destruct (tmod_step (b_mem b) i f _ HC) as (m1 & E1 & HC1 & F1) end. rewrite E1. cbn [bind set_mem b_mem b_arr a_data b_root a_num a_last]. unfold n_key in HC1. cbn [n_inf] in HC1. fold x' in HC1.
        assert (HW1 : wtree m1 (b_root b) (N ll i x' lr)).
        { split; [|split].
          - cbn [wrep]. split; [apply (wcell_of _ _ _ _ _ _ HC1)|]. apply frame_wframe in F1. split; (eapply wrep_ext; [|eassumption]); intros k Hk; apply F1; intros [<-|[]]; dj NDT.
          - apply nodup_cnt. intros z. specialize (NDT z). cbn [idx] in *. rewrite ?cnt_app, ?cnt_cons, ?cnt_nil in *. rewrite ?cnt_app, ?cnt_cons, ?cnt_nil in NDT. lia.
          - exact ERT. }
        assert (HCl : cell m1 li = Some (mknode lx (root ll) (root lr) pc)) by (apply (frame_cell _ _ _ _ _ F1); [intros [<-|[]]; dj NDT|exact HCc]).
        rewrite ERT, (tget_ok _ _ _ HC1). cbn [bind].
        destruct (drop_ok b T (N ll i x' lr) m1 li _ SP HW1 (proj1 F1) HCl) as (arr & E3 & SP3 & L3).
        { rewrite ET. rewrite cnt_In. cbn [idx]. rewrite ?cnt_app, ?cnt_cons, ?cnt_app, ?cnt_cons, Z.eqb_refl. lia. }
        { intros X. rewrite cnt_In in X. specialize (NDT li). cbn [idx] in *. rewrite ?cnt_app, ?cnt_cons, ?cnt_nil in X. rewrite ?cnt_app, ?cnt_cons, ?cnt_nil in NDT. rewrite ?cnt_app, ?cnt_cons, ?cnt_nil in NDT. rewrite Z.eqb_refl in NDT. lia. }
        { intros k Hk. rewrite ET. rewrite cnt_In in *. cbn [idx] in *. rewrite ?cnt_app, ?cnt_cons, ?cnt_nil in *. rewrite ?cnt_app, ?cnt_cons, ?cnt_nil. lia. }
        { rewrite ET. cbn [nodes]. lia. }
        { exact HL. }
        rewrite E3. cbn [bind]. change (set_arr (set_mem b m1) arr) with (set_arr b arr). cbn [is_none negb].
        exists (set_arr b arr), (N ll i x' lr). split; [reflexivity|]. split; [exact SP3|]. split; [rewrite EE; unfold ents; cbn [cl cr infos app]; rewrite ?app_nil_r, ?map_app; cbn [map]; rewrite ?map_app; reflexivity|]. split; [discriminate|]. split; [rewrite ET; cbn [nodes]; lia|]. auto.
      + rewrite <- Ec in *. assert (NT : c <> Top) by (rewrite Ec; discriminate). destruct (BYP (N ll li lx lr) NT HL' ltac:(intros z; cbn [idx]; rewrite ?cnt_nil; lia) ltac:(cbn [nodes]; lia) ltac:(rewrite ?app_nil_r; reflexivity)) as (m1 & E1 & HW1 & L1 & _ & _ & HS1 & FIN).
        destruct (wcell_inv _ _ _ _ _ (proj1 HS1)) as (pc & HCc). destruct (set_parent_w m1 _ (cpar c) _ HCc) as (m2 & E2 & F2). destruct (FIN m2 F2) as (arr & E3 & RM).
        assert (HW2 : wtree m2 (b_root b) (plug c (N ll li lx lr))) by (eapply wtree_frame; [exact HW1|exact F2|intros ? []]).
        assert (X := proj1 HW2). apply wrep_plug in X as (X & _). destruct (wpar _ _ _ X NT) as (np & Ep). destruct (wroot b m2 _ HW2 (plug_ne2 _ _ NT)) as (nr & Er).
        destruct (cpar_ne c NT) as (jp & Ejp); rewrite Ejp in *. rewrite relink_unfold in E1. destruct (tget (b_mem b) (Some jp)) as [pn| |] eqn:Epn; cbn [bind] in E1; try discriminate. cbn [bind]. cbn [root] in E1. rewrite E1. cbn [bind]. rewrite E2. cbn [bind set_mem b_mem b_arr a_data b_root a_num a_last]. rewrite Ep, Er. cbn [bind]. rewrite E3. cbn [bind].
        change (set_arr (mkbst (mkaft m2 (a_num (b_arr b)) (a_last (b_arr b))) (b_root b) (b_size b) (b_comp b) (b_os b)) arr) with (set_arr b arr). rewrite UP by exact HOS. cbn [bind is_none negb]. exists (set_arr b arr), (plug c (N ll li lx lr)). auto.
      + rewrite <- Ec in *. assert (NT : c <> Top) by (rewrite Ec; discriminate). destruct (BYP (N ll li lx lr) NT HL' ltac:(intros z; cbn [idx]; rewrite ?cnt_nil; lia) ltac:(cbn [nodes]; lia) ltac:(rewrite ?app_nil_r; reflexivity)) as (m1 & E1 & HW1 & L1 & _ & _ & HS1 & FIN).
        destruct (wcell_inv _ _ _ _ _ (proj1 HS1)) as (pc & HCc). destruct (set_parent_w m1 _ (cpar c) _ HCc) as (m2 & E2 & F2). destruct (FIN m2 F2) as (arr & E3 & RM).
        assert (HW2 : wtree m2 (b_root b) (plug c (N ll li lx lr))) by (eapply wtree_frame; [exact HW1|exact F2|intros ? []]).
        assert (X := proj1 HW2). apply wrep_plug in X as (X & _). destruct (wpar _ _ _ X NT) as (np & Ep). destruct (wroot b m2 _ HW2 (plug_ne2 _ _ NT)) as (nr & Er).
        destruct (cpar_ne c NT) as (jp & Ejp); rewrite Ejp in *. rewrite relink_unfold in E1. destruct (tget (b_mem b) (Some jp)) as [pn| |] eqn:Epn; cbn [bind] in E1; try discriminate. cbn [bind]. cbn [root] in E1. rewrite E1. cbn [bind]. rewrite E2. cbn [bind set_mem b_mem b_arr a_data b_root a_num a_last]. rewrite Ep, Er. cbn [bind]. rewrite E3. cbn [bind].
        change (set_arr (mkbst (mkaft m2 (a_num (b_arr b)) (a_last (b_arr b))) (b_root b) (b_size b) (b_comp b) (b_os b)) arr) with (set_arr b arr). rewrite UP by exact HOS. cbn [bind is_none negb]. exists (set_arr b arr), (plug c (N ll li lx lr)). auto.
    - (* two children *) clear BYP. set (l := N ll li lx lr) in *. set (r := N rl ri rx rr) in *.
      match goal with |- context [bind (while_loop ?f ?bd ?st0) _] => assert (W : wp (while_loop f bd st0) (fun o => exists fs j y s, r = plugl fs (N E j y s) /\ o = (Some j, cpar (clefts (CR c l i x) fs), negb (match fs with [] => true | _ => false end)))) end.
      { eapply (wp_while_g (fun n st => exists fs S, r = plugl fs S /\ S <> E /\ st = (root S, cpar (clefts (CR c l i x) fs), negb (match fs with [] => true | _ => false end)) /\ n = Z.to_nat (nodes S))).
        - intros n st (fs & S & Er & SE & -> & ->). destruct S as [|a j y s]; [congruence|]. assert (EF : plug c (N l i x r) = plug (clefts (CR c l i x) fs) (N a j y s)) by (rewrite Er, plug_clefts; reflexivity).
          assert (HW2 := HW). rewrite EF in HW2. destruct (wsub _ _ _ _ _ _ _ HW2) as (q & HCq). cbn [root]. rewrite (tget_ok _ _ _ HCq). cbn [bind n_left]. destruct a as [|al ai ax ar]; cbn [root].
          + cbn [wp]. exists fs, j, y, s. auto.
          + cbn [wp]. eexists. split; [|exists ((j, y, s) :: fs), (N al ai ax ar); split; [exact Er|]; split; [discriminate|]; split; [reflexivity|reflexivity]]. pose proof (nodes_nonneg al). pose proof (nodes_nonneg ar). pose proof (nodes_nonneg s). cbn [nodes]. lia.
        - exists [], r. split; [reflexivity|]. split; [discriminate|]. auto.
        - assert (H := wfuel _ _ _ HW). pose proof (nodes_plug_le c (N l i x r)). cbn [nodes] in *. pose proof (nodes_nonneg l). cbn [nodes] in *. lia. }
      apply wp_ex in W as (o & EW & fs & j & y & s & Er & ->). rewrite EW. cbn [bind].
      assert (EF : forall x0, plug c (N l i x0 r) = plug (clefts (CR c l i x0) fs) (N E j y s)) by (intros x0; rewrite Er, plug_clefts; reflexivity).
      assert (HW2 := HW). rewrite EF in HW2. destruct (wsub _ _ _ _ _ _ _ HW2) as (q & HCq). rewrite (tget_ok _ _ _ HCq). cbn [bind]. unfold n_key. cbn [n_inf].
      set (x' := with_key (k_key y) (with_data (k_data y) x)).
      match goal with |- context [tmod (b_mem b) (Some i) ?f] => destruct (wset_inf _ _ _ _ _ _ _ f x' HW) as (m1 & E1 & HW1 & F1) end; [intros n; split; reflexivity|intros n En; cbn [set_inf n_inf]; rewrite En; reflexivity|]. rewrite E1. cbn [bind].
      rewrite EF in HW1. set (c2 := clefts (CR c l i x') fs) in *. assert (NT : c2 <> Top) by (apply clefts_top; discriminate). destruct (wsub _ _ _ _ _ _ _ HW1) as (q1 & HCj). rewrite (tget_ok _ _ _ HCj). cbn [bind n_right].
      assert (HWs := proj1 HW1). apply wrep_plug in HWs as (HCR2 & _ & _ & HWs). assert (ND1 := proj1 (proj2 HW1)).
      destruct (wbypass _ _ _ _ _ _ _ s HW1 NT HWs ltac:(intros z; cbn [idx]; lia)) as (m2 & E2 & HW3 & F2 & HS2).
      assert (EPAR : cpar (clefts (CR c l i x) fs) = cpar c2) by (unfold c2; destruct fs as [|[[? ?] ?] ?]; reflexivity). rewrite EPAR.
      assert (FLG : (if negb (match fs with [] => true | _ => false end) then tmod m1 (cpar c2) (set_left (root s)) else tmod m1 (cpar c2) (set_right (root s))) = Ret m2).
      { rewrite <- E2, relink_unfold. destruct fs as [|[[fi fx] fr] fs']; cbn [negb].
        - unfold c2 in *. cbn [clefts cpar wcrep] in *. destruct HCR2 as (A & _). destruct (wcell_inv _ _ _ _ _ A) as (p0 & A0). rewrite (tget_ok _ _ _ A0). cbn [bind n_left]. cbn [root l oeqb]. replace (li =? j) with false; [reflexivity|]. symmetry. apply Z.eqb_neq. rewrite nodup_cnt in ND1. cbn [plug] in ND1. unfold l in ND1. dj ND1.
        - unfold c2 in *. cbn [clefts cpar wcrep] in *. destruct HCR2 as (A & _). destruct (wcell_inv _ _ _ _ _ A) as (p0 & A0). rewrite (tget_ok _ _ _ A0). cbn [bind n_left]. cbn [root oeqb]. rewrite Z.eqb_refl. reflexivity. }
      rewrite FLG. cbn [bind].
      destruct (bypass_idx c2 E j y s s ND1 ltac:(intros z; cbn [idx]; lia)) as [NI II].
      assert (NIC : ~ In j (cidx c2)). { intros X. rewrite nodup_cnt in ND1. specialize (ND1 j). rewrite cnt_plug in ND1. cbn [idx] in ND1. rewrite cnt_app, cnt_cons, Z.eqb_refl in ND1. apply cnt_In in X. lia. }
      assert (EWj : wcell m2 j = Some (y, None, root s)) by (rewrite (proj2 F2) by exact NIC; apply (wcell_of _ _ _ _ _ _ HCj)). destruct (wcell_inv _ _ _ _ _ EWj) as (q2 & HCj2). rewrite (tget_ok _ _ _ HCj2). cbn [bind n_right].
      assert (exists m3, (match root s with Some _ => tmod m2 (root s) (set_parent (cpar c2)) | None => Ret m2 end) = Ret m3 /\ wframe m2 m3 []) as (m3 & E3 & F3).
      { destruct s as [|sl si sx sr]; cbn [root]; [exists m2; split; [reflexivity|split; auto]|]. destruct (wcell_inv _ _ _ _ _ (proj1 HS2)) as (pc & HCc). apply (set_parent_w _ _ _ _ HCc). }
      rewrite E3. cbn [bind set_mem b_mem b_arr a_data b_root a_num a_last].
      assert (HW4 : wtree m3 (b_root b) (plug c2 s)) by (eapply wtree_frame; [exact HW3|exact F3|intros ? []]).
      assert (X := proj1 HW4). apply wrep_plug in X as (X & _). destruct (wpar _ _ _ X NT) as (np & Ep). destruct (wroot b m3 _ HW4 (plug_ne2 _ _ NT)) as (nr & Erq).
      unfold b_mem. cbn [set_mem b_arr a_data b_root]. rewrite Ep, Erq. cbn [bind].
      assert (EWj3 : wcell m3 j = Some (y, None, root s)) by (rewrite (proj2 F3) by auto; exact EWj). destruct (wcell_inv _ _ _ _ _ EWj3) as (q3 & HCj3).
      assert (EIT : forall k, In k (idx (plug c2 (N E j y s))) <-> In k (idx T)). { intros k. unfold c2. rewrite <- EF, ET. rewrite !cnt_In, !cnt_plug. reflexivity. }
      assert (ENT : nodes (plug c2 s) = nodes T - 1). { pose proof (nodes_plug c2 s (N E j y s)) as Q. unfold c2 in Q at 2. rewrite <- EF in Q. rewrite ET. assert (Q3 : nodes (plug c (N l i x' r)) = nodes (plug c (N l i x r))) by (pose proof (nodes_plug c (N l i x' r) (N l i x r)) as Q2; cbn [nodes] in Q2; lia). rewrite Q3 in Q. cbn [nodes] in Q. lia. }
      match type of HCj3 with _ = Some ?n0 => destruct (drop_ok b T (plug c2 s) m3 j n0 SP HW4) as (arr & E4 & SP4 & L4) end.
      + rewrite (proj1 F3), (proj1 F2). apply F1.
      + exact HCj3.
      + apply EIT. apply (cnt_sub _ _ _ _ _ _ eq_refl).
      + exact NI.
      + intros k Hk. apply EIT, II, Hk.
      + exact ENT.
      + exact HL.
      + rewrite E4. cbn [bind]. unfold after_delete. cbn [bind]. change (set_arr (set_mem b m3) arr) with (set_arr b arr). rewrite UP by exact HOS. cbn [bind is_none negb]. exists (set_arr b arr), (plug c2 s). split; [reflexivity|]. split; [exact SP4|]. split; [|split; [apply plug_ne2; exact NT|]; auto].
        rewrite EE. unfold ents, c2. rewrite plug_clefts. cbn [plug]. rewrite infos_plug. cbn [infos]. rewrite Er, !infos_plugl. cbn [infos app]. rewrite !map_app. cbn [map]. rewrite !map_app. rewrite <- !app_assoc. cbn [app]. rewrite <- ?app_assoc. reflexivity.
  Qed.
  Lemma delete_ok b T key : default b -> b_os b = false -> sparse b T -> ordered (infos T) -> T <> E -> len (b_mem b) <= 4 * (nodes T - 1) ->
    exists b' T' f, delete b key = Ret (b', f) /\ (f = true <-> In (Some key) (map fst (ents T))) /\ sparse b' T' /\ ents T' = without key (ents T) /\ T' <> E /\ nodes T - 1 <= nodes T' /\ len (b_mem b') = len (b_mem b) /\ b_comp b' = b_comp b /\ b_os b' = b_os b.
  Proof.
    intros HD HOS SP HO HE HL. destruct (wsearch b T key HD (s_at _ _ SP) HO HE) as (c & S & _ & ES & HK). destruct HK as (ET & HP & [-> | (l & i & x & r & -> & Ek)]).
    - exists b, T, false. cbn [root] in ES. unfold delete, delete_info. rewrite ES. cbn [bind is_none negb]. split; [reflexivity|].
      assert (AB : Forall (kis (fun k => k <> key)) (infos T)) by (apply (absent key T c); split; [exact ET|auto]).
      split; [|split; [exact SP|]; split; [|split; [exact HE|]; split; [lia|auto]]].
      + split; [discriminate|]. intros X. exfalso. apply in_map_iff in X as ((k & d) & Ek & X). cbn [fst] in Ek. subst k. unfold ents in X. apply in_map_iff in X as (y & Ey & Hy). rewrite Forall_forall in AB. specialize (AB y Hy). unfold kis in AB. injection Ey as Ey _. rewrite Ey in AB. congruence.
      + symmetry. unfold ents. apply without_none. exact AB.
    - cbn [root] in ES. destruct (delete_present b T key c l i x r HD HOS SP HO HE HL ES ET Ek) as (b' & T' & E1 & H1 & H2 & H3 & H4 & H5 & H6 & H7). exists b', T', true. split; [exact E1|]. split.
      + split; [|reflexivity]. intros _. apply in_map_iff. exists (ent x). split; [exact Ek|]. unfold ents. apply in_map. rewrite ET, infos_plug. cbn [infos]. rewrite !in_app_iff. right. left. right. left. reflexivity.
      + split; [exact H1|]. split; [exact H2|]. split; [exact H3|]. split; [lia|]. auto.
  Qed.
End Del.
