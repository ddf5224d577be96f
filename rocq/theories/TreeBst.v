(** Proofs: BinarySearchTree insert and search. *)
From Coq Require Import Sorted.
From Verif Require Import Base TreeModel TreeProofs TreeRotate.

Section Bst.
  Context {D : Type}.
  Notation info := (info D). Notation node := (node D). Notation mem := (mem D). Notation bst := (bst D). Notation bt := (bt D). Notation ctx := (ctx D).

  (** ** order *)
  Definition kis (P : Z -> Prop) (x : info) : Prop := match k_key x with Some k => P k | None => False end.
  Definition klt (x y : info) : Prop := match k_key x, k_key y with Some a, Some b => a < b | _, _ => False end.
  Definition ordered (l : list info) : Prop := Forall (kis (fun _ => True)) l /\ StronglySorted klt l.
  Lemma ss_app {A} (R : A -> A -> Prop) a b : StronglySorted R (a ++ b) <-> StronglySorted R a /\ StronglySorted R b /\ forall x y, In x a -> In y b -> R x y.
  Proof.
    induction a as [|x a IH]; cbn [app].
    - split; [intros H; split; [constructor|]; split; [exact H|]; intros x y []|tauto].
    - split.
      + intros H. apply StronglySorted_inv in H as [H1 H2]. apply IH in H1 as (A1 & A2 & A3). rewrite Forall_app in H2. destruct H2 as [F1 F2]. split; [constructor; assumption|]. split; [exact A2|].
        intros y z [<-|Hy] Hz; [rewrite Forall_forall in F2; auto|auto].
      + intros (A1 & A2 & A3). apply StronglySorted_inv in A1 as [A1 F1]. constructor; [apply IH; split; [exact A1|]; split; [exact A2|]; intros y z Hy Hz; apply A3; [right; exact Hy|exact Hz]|].
        rewrite Forall_app. split; [exact F1|]. apply Forall_forall. intros z Hz. apply A3; [left; reflexivity|exact Hz].
  Qed.
  Lemma ordered_app a b : ordered (a ++ b) <-> ordered a /\ ordered b /\ forall x y, In x a -> In y b -> klt x y.
  Proof. unfold ordered. rewrite Forall_app, ss_app. tauto. Qed.
  Lemma ordered_mid a x b : ordered (a ++ x :: b) <-> ordered a /\ ordered b /\ exists k, k_key x = Some k /\ Forall (kis (fun i => i < k)) a /\ Forall (kis (fun i => k < i)) b.
  Proof.
    change (x :: b) with ([x] ++ b). rewrite !ordered_app. split.
    - intros (A & (B & C & H1) & H2). split; [exact A|]. split; [exact C|]. destruct B as [B _]. inversion B as [|? ? Bx _]; subst. unfold kis in Bx. destruct (k_key x) as [k|] eqn:Ek; [|destruct Bx]. exists k. split; [reflexivity|].
      split; apply Forall_forall; intros y Hy; unfold kis.
      + specialize (H2 y x Hy (or_introl eq_refl)). unfold klt in H2. rewrite Ek in H2. destruct (k_key y); [exact H2|exact H2].
      + specialize (H1 x y (or_introl eq_refl) Hy). unfold klt in H1. rewrite Ek in H1. destruct (k_key y); [exact H1|exact H1].
    - intros (A & C & k & Ek & F1 & F2). rewrite Forall_forall in F1, F2. split; [exact A|]. split; [split; [split; [constructor; [unfold kis; rewrite Ek; exact I|constructor]|repeat constructor]|split; [exact C|]]|].
      + intros u y [<-|[]] Hy. unfold klt. rewrite Ek. specialize (F2 y Hy). unfold kis in F2. destruct (k_key y); exact F2.
      + intros u y Hu Hy. apply in_app_or in Hy as [[<-|[]]|Hy].
        * unfold klt. rewrite Ek. specialize (F1 u Hu). unfold kis in F1. destruct (k_key u); exact F1.
        * specialize (F1 u Hu). specialize (F2 y Hy). unfold kis, klt in *. destruct (k_key u), (k_key y); try contradiction. lia.
  Qed.
  Lemma kis_mono (P Q : Z -> Prop) l : (forall k, P k -> Q k) -> Forall (kis P) l -> Forall (kis Q) l.
  Proof. intros H. apply Forall_impl. intros x. unfold kis. destruct (k_key x); [apply H|auto]. Qed.
  (** ordered depends on keys only *)
  Lemma ordered_keys a b : map k_key a = map k_key b -> ordered a -> ordered b.
  Proof.
    intros E [H1 H2]. split.
    - revert b E. induction H1 as [|x a Hx _ IH]; intros [|y b] E; try discriminate; [constructor|]. injection E as Ex E. apply StronglySorted_inv in H2 as [H2 _]. constructor; [unfold kis in *; rewrite <- Ex; exact Hx|apply IH; assumption].
    - clear H1. revert b E. induction H2 as [|x a _ IH F]; intros [|y b] E; try discriminate; [constructor|]. injection E as Ex E. constructor; [apply IH; exact E|].
      clear - F Ex E. revert b E. induction F as [|z a Hz _ IH]; intros [|w b] E; try discriminate; [constructor|]. injection E as Ez E. constructor; [unfold klt in *; rewrite <- Ex, <- Ez; exact Hz|apply IH; exact E].
  Qed.
  Lemma kis_keys P a b : map k_key a = map k_key b -> Forall (kis P) a -> Forall (kis P) b.
  Proof. intros E H. revert b E. induction H as [|x a Hx _ IH]; intros [|y b] E; try discriminate; [constructor|]. injection E as Ex E. constructor; [unfold kis in *; rewrite <- Ex; exact Hx|apply IH; exact E]. Qed.

  (** ** the array of a tree that only grew *)
  Record grown (b : bst) (T : bt) : Prop := {
    g_at : tree_at (b_mem b) (b_root b) T;
    g_num : a_num (b_arr b) = b_size b;
    g_last : a_last (b_arr b) = b_size b - 1;
    g_cap : b_size b <= len (b_mem b) <= 2 * b_size b - 1;
    g_idx : forall i, In i (idx T) -> 0 <= i < b_size b;
    g_nodes : nodes T = b_size b }.

  Lemma cell_app m k i : cell (m ++ repeat (@None node) k) i = cell m i.
  Proof.
    unfold cell, aget. destruct (Z.ltb_spec i 0) as [L|L]; cbn [orb]; [reflexivity|].
    assert (LA : len (m ++ repeat (@None node) k) = len m + Z.of_nat k) by (unfold len; rewrite app_length, repeat_length; lia). rewrite LA.
    destruct (Z.leb_spec (len m) i) as [L1|L1].
    - destruct (Z.leb_spec (len m + Z.of_nat k) i) as [L2|L2]; [reflexivity|]. unfold len in *. rewrite nth_error_app2 by lia.
      destruct (nth_error (repeat (@None node) k) (Z.to_nat i - length m)) as [c|] eqn:Ec; [|reflexivity]. apply nth_error_In, repeat_spec in Ec. subst. reflexivity.
    - destruct (Z.leb_spec (len m + Z.of_nat k) i) as [L2|L2]; [lia|]. unfold len in *. rewrite nth_error_app1 by lia. reflexivity.
  Qed.
  Lemma append_ok (a : aft D) n s : a_num a = s -> a_last a = s - 1 -> s <= len (a_data a) <= 2 * s - 1 ->
    exists a', aft_append a (Some n) = Ret a' /\ a_num a' = s + 1 /\ a_last a' = s /\ s + 1 <= len (a_data a') <= 2 * (s + 1) - 1 /\ cell (a_data a') s = Some n /\ forall i, i <> s -> cell (a_data a') i = cell (a_data a) i.
  Proof.
    intros E1 E2 HC. unfold aft_append. rewrite E1, E2. replace (s - 1 + 1) with s by lia.
    set (data := if s =? len (a_data a) then a_data a ++ repeat None (Z.to_nat (len (a_data a) + 1)) else a_data a).
    assert (LD : s + 1 <= len data <= 2 * (s + 1) - 1).
    { unfold data. destruct (Z.eqb_spec s (len (a_data a))); [unfold len in *; rewrite app_length, repeat_length; lia|lia]. }
    assert (CD : forall i, cell data i = cell (a_data a) i) by (intros i; unfold data; destruct (s =? len (a_data a)); [apply cell_app|reflexivity]).
    rewrite aset_ok by lia. cbn [bind]. unfold aft_modify. cbn [a_num a_data a_last]. rewrite len_zupd. destruct (Z.ltb_spec (4 * (s + 1)) (len data)); [lia|]. cbn [bind].
    eexists. split; [reflexivity|]. cbn [a_num a_data a_last]. rewrite len_zupd. split; [reflexivity|]. split; [reflexivity|]. split; [exact LD|].
    assert (inb data s) by (unfold inb; lia). split; [rewrite cell_zupd, Z.eqb_refl by assumption; reflexivity|]. intros i Hi. rewrite cell_zupd by assumption. apply Z.eqb_neq in Hi. rewrite Hi. apply CD.
  Qed.

  (** ** search *)
  Lemma wp_while_g {S R} (I : nat -> S -> Prop) (Q : R -> Prop) body :
    (forall n s, I n s -> wp (body s) (fun r => match r with Next s' => exists n', (n' < n)%nat /\ I n' s' | Break r => Q r end)) ->
    forall fuel n s, I n s -> (n < fuel)%nat -> wp (while_loop fuel body s) Q.
  Proof.
    intros Hb fuel. induction fuel as [|f IH]; intros n s HI Hm; [lia|]. cbn [while_loop]. specialize (Hb n s HI).
    destruct (body s) as [[s'|r]| |]; simpl in Hb; try contradiction; [|exact Hb]. destruct Hb as (n' & L & HI'). apply (IH n'); [exact HI'|lia].
  Qed.
  Lemma fuel_ok (m : mem) rt T : tree_at m rt T -> (Z.to_nat (nodes T) < fuel m)%nat.
  Proof. intros (HR & ND & _). assert (H := nodes_mem m T None HR ND). unfold fuel, len in *. lia. Qed.
  Lemma sub_cell (m : mem) rt c l i x r : tree_at m rt (plug c (N l i x r)) -> cell m i = Some (mknode x (root l) (root r) (cpar c)).
  Proof. intros (HR & _ & _). apply rep_plug in HR as [_ HR]. apply HR. Qed.
  (** position of [key] in T *)
  Definition path_to (key : Z) (c : ctx) : Prop := Forall (kis (fun k => k < key)) (cl c) /\ Forall (kis (fun k => key < k)) (cr c).
  Definition at_key (key : Z) (T : bt) (c : ctx) (S : bt) : Prop :=
    T = plug c S /\ path_to key c /\ (S = E \/ exists l i x r, S = N l i x r /\ k_key x = Some key).
  Definition default (b : bst) : Prop := b_comp b = None.
  Lemma oeqb_spec a b : reflect (a = b) (oeqb a b).
  Proof. destruct a as [x|], b as [y|]; cbn [oeqb]; [destruct (Z.eqb_spec x y); constructor; congruence|..]; constructor; congruence. Qed.
  Lemma ordered_here c l i x r : ordered (infos (plug c (N l i x r))) -> exists k, k_key x = Some k /\ ordered (cl c ++ infos l) /\ ordered (infos r ++ cr c) /\
    Forall (kis (fun i => i < k)) (cl c ++ infos l) /\ Forall (kis (fun i => k < i)) (infos r ++ cr c).
  Proof.
    rewrite infos_plug. cbn [infos]. rewrite <- app_assoc. cbn [app]. rewrite app_assoc, ordered_mid. intros (A & B & k & E & F1 & F2). exists k. auto.
  Qed.
  Lemma path_left key c i x r k : path_to key c -> k_key x = Some k -> key < k -> Forall (kis (fun i => k < i)) (infos r ++ cr c) -> path_to key (CL c i x r).
  Proof.
    intros [P1 P2] E L F. split; cbn [cl cr]; [exact P1|]. constructor; [unfold kis; rewrite E; exact L|]. eapply kis_mono; [|exact F]. intros z Hz. cbn beta in *. lia.
  Qed.
  Lemma path_right key c l i x k : path_to key c -> k_key x = Some k -> k < key -> Forall (kis (fun i => i < k)) (cl c ++ infos l) -> path_to key (CR c l i x).
  Proof.
    intros [P1 P2] E L F. split; cbn [cl cr]; [|exact P2]. rewrite app_assoc. apply Forall_app. split; [eapply kis_mono; [|exact F]; intros z Hz; cbn beta in *; lia|]. constructor; [unfold kis; rewrite E; exact L|constructor].
  Qed.
  Lemma search_loop_ok b T key : default b -> tree_at (b_mem b) (b_root b) T -> ordered (infos T) ->
    exists c S, search_loop b key = Ret (root S, cpar c) /\ at_key key T c S.
  Proof.
    intros HD HT HO. assert (W : wp (search_loop b key) (fun r => exists c S, r = (root S, cpar c) /\ at_key key T c S)).
    { unfold search_loop. eapply (wp_while_g (fun n s => exists c S, s = (root S, cpar c) /\ T = plug c S /\ path_to key c /\ n = Z.to_nat (nodes S))).
      - intros n s (c & S & -> & ET & HP & ->). destruct S as [|l i x r]; cbn [root].
        + cbn [wp]. exists c, E. split; [reflexivity|]. split; [exact ET|]. auto.
        + rewrite ET in HT, HO. rewrite (tget_ok _ _ _ (sub_cell _ _ _ _ _ _ _ HT)). cbn [bind n_left n_right]. unfold n_key. cbn [n_inf].
          destruct (ordered_here _ _ _ _ _ HO) as (k & Ek & _ & _ & F1 & F2). rewrite Ek. cbn [oeqb]. destruct (Z.eqb_spec k key) as [->|NE].
          * cbn [wp]. exists c, (N l i x r). split; [reflexivity|]. split; [exact ET|]. split; [exact HP|]. right. exists l, i, x, r. auto.
          * unfold comparator. rewrite HD. cbn [bind wp]. pose proof (nodes_nonneg l). pose proof (nodes_nonneg r). destruct (Z.ltb_spec key k) as [L|L].
            -- exists (Z.to_nat (nodes l)). split; [cbn [nodes]; lia|]. exists (CL c i x r), l. split; [reflexivity|]. split; [exact ET|]. split; [eapply path_left; eassumption|reflexivity].
            -- exists (Z.to_nat (nodes r)). split; [cbn [nodes]; lia|]. exists (CR c l i x), r. split; [reflexivity|]. split; [exact ET|]. split; [eapply path_right; try eassumption; lia|reflexivity].
      - exists Top, T. destruct HT as (_ & _ & ->). split; [reflexivity|]. split; [reflexivity|]. split; [split; constructor|reflexivity].
      - apply (fuel_ok _ _ _ HT). }
    apply wp_ex in W as (r & E & c & S & -> & H). exists c, S. auto.
  Qed.
  Lemma root_cell (m : mem) rt T : tree_at m rt T -> T <> E -> exists l i x r, T = N l i x r /\ rt = Some i /\ cell m i = Some (mknode x (root l) (root r) None).
  Proof. destruct T as [|l i x r]; [congruence|]. intros (HR & _ & ->) _. exists l, i, x, r. split; [reflexivity|]. split; [reflexivity|]. apply HR. Qed.
  Lemma root_keyed b T : tree_at (b_mem b) (b_root b) T -> ordered (infos T) -> T <> E -> exists n k, tget (b_mem b) (b_root b) = Ret n /\ n_key n = Some k.
  Proof.
    intros HT HO HE. destruct (root_cell _ _ _ HT HE) as (l & i & x & r & -> & -> & Hc). rewrite (tget_ok _ _ _ Hc). destruct (ordered_here Top _ _ _ _ HO) as (k & Ek & _). eexists. exists k. split; [reflexivity|exact Ek].
  Qed.
  Lemma search_ok b T key : default b -> tree_at (b_mem b) (b_root b) T -> ordered (infos T) -> T <> E ->
    exists c S, search b key = Ret (root S) /\ search_parent b key = Ret (root S, cpar c) /\ at_key key T c S.
  Proof.
    intros HD HT HO HE. destruct (search_loop_ok b T key HD HT HO) as (c & S & E1 & HK). destruct (root_keyed b T HT HO HE) as (n & k & En & Ek).
    exists c, S. unfold search, search_parent. rewrite En. cbn [bind]. rewrite Ek, E1. auto.
  Qed.

  (** ** update_size *)
  Fixpoint sized (T : bt) : Prop := match T with E => True | N l i x r => k_size x = nodes l + nodes r + 1 /\ sized l /\ sized r end.
  Fixpoint csized (c : ctx) : Prop := match c with Top => True | CL c i x r => sized r /\ csized c | CR c l i x => sized l /\ csized c end.
  Definition fits (l r : bt) (x : info) : info := with_size (nodes l + nodes r + 1) x.
  (** sizes recomputed along the path to the root *)
  Fixpoint up (c : ctx) (S : bt) : bt :=
    match c with Top => S | CL c i x r => up c (N S i (fits S r x) r) | CR c l i x => up c (N l i (fits l S x) S) end.
  Lemma sized_plug c : forall S, sized (plug c S) -> sized S /\ csized c.
  Proof. induction c as [|c IH i x r|c IH l i x]; intros S H; cbn [plug csized] in *; [auto|..]; apply IH in H as [H1 H2]; cbn [sized] in H1; tauto. Qed.
  Lemma sized_up c : forall S, sized S -> csized c -> sized (up c S).
  Proof. induction c as [|c IH i x r|c IH l i x]; intros S H1 H2; cbn [up csized] in *; [auto|..]; apply IH; cbn [sized fits with_size k_size]; try tauto; split; try reflexivity; tauto. Qed.
  Lemma idx_plug_eq (c : ctx) : forall S S' : bt, idx S = idx S' -> idx (plug c S) = idx (plug c S').
  Proof. induction c as [|c IH i x r|c IH l i x]; intros S S' H; cbn [plug]; [exact H|..]; apply IH; cbn [idx]; rewrite H; reflexivity. Qed.
  Lemma idx_up c : forall S, idx (up c S) = idx (plug c S).
  Proof. induction c as [|c IH i x r|c IH l i x]; intros S; cbn [up plug]; [reflexivity|..]; rewrite IH; apply idx_plug_eq; reflexivity. Qed.
  Definition ent (x : info) : option Z * option D := (k_key x, k_data x).
  Definition ents (T : bt) : list (option Z * option D) := map ent (infos T).
  Lemma ents_plug c S S' : ents S = ents S' -> ents (plug c S) = ents (plug c S').
  Proof. intros H. unfold ents in *. rewrite !infos_plug, !map_app, H. reflexivity. Qed.
  Lemma ents_up c : forall S, ents (up c S) = ents (plug c S).
  Proof. induction c as [|c IH i x r|c IH l i x]; intros S; cbn [up plug]; [reflexivity|..]; rewrite IH; apply ents_plug; unfold ents; cbn [infos]; rewrite !map_app; reflexivity. Qed.
  Lemma root_up c : forall S, root (up c S) = root (plug c S).
  Proof. induction c as [|c IH i x r|c IH l i x]; intros S; cbn [up plug]; [reflexivity|..]; rewrite IH; apply root_plug; reflexivity. Qed.
  Lemma ordered_ents T T' : ents T = ents T' -> ordered (infos T) -> ordered (infos T').
  Proof. intros H. apply ordered_keys. unfold ents in H. apply (f_equal (map fst)) in H. rewrite !map_map in H. exact H. Qed.
  Lemma nodes_ents T T' : ents T = ents T' -> nodes T = nodes T'.
  Proof. intros H. rewrite <- !infos_len. unfold ents, len in *. apply (f_equal (@length _)) in H. rewrite !map_length in H. lia. Qed.

  Lemma set_info_ok (m : mem) rt c l i x r y : tree_at m rt (plug c (N l i x r)) -> 
    exists m', tmod m (Some i) (set_inf (fun _ => y)) = Ret m' /\ tree_at m' rt (plug c (N l i y r)) /\ frame m m' [i].
  Proof.
    intros HT. assert (HC := sub_cell _ _ _ _ _ _ _ HT). destruct HT as (HR & ND0 & ->). assert (ND := ND0). rewrite nodup_cnt in ND. apply rep_plug in HR as (C & A & L & R).
    destruct (tmod_step m i (set_inf (fun _ => y)) _ HC) as (m' & Em & Hc & F). exists m'. split; [exact Em|]. split; [|exact F]. carry F ND. split; [|split].
    - apply rep_plug. cbn [rep root]. split; [exact C|]. split; [exact Hc|]. auto.
    - eapply perm_cnt; [|exact ND0]. intros z. rewrite !cnt_plug. reflexivity.
    - apply root_plug. reflexivity.
  Qed.
  Lemma tmod_inf (m : mem) i f n : cell m i = Some n -> tmod m (Some i) (set_inf f) = tmod m (Some i) (set_inf (fun _ => f (n_inf n))).
  Proof. intros H. rewrite !(tmod_ok _ _ _ _ H). reflexivity. Qed.
  Lemma root_size (m : mem) T p : rep m T p -> sized T -> forall n, n_left n = root T -> left_size m n = Ret (nodes T).
  Proof.
    intros HR HS n En. unfold left_size. rewrite En. destruct T as [|l i x r]; cbn [root]; [reflexivity|]. destruct HR as (A & _). rewrite (tget_ok _ _ _ A). cbn [bind n_inf]. destruct HS as [-> _]. reflexivity.
  Qed.
  Lemma root_size_r (m : mem) T p : rep m T p -> sized T -> forall n, n_right n = root T -> right_size m n = Ret (nodes T).
  Proof.
    intros HR HS n En. unfold right_size. rewrite En. destruct T as [|l i x r]; cbn [root]; [reflexivity|]. destruct HR as (A & _). rewrite (tget_ok _ _ _ A). cbn [bind n_inf]. destruct HS as [-> _]. reflexivity.
  Qed.
  Lemma fix_size_ok (m : mem) rt c l i x r : tree_at m rt (plug c (N l i x r)) -> sized l -> sized r ->
    exists m', fix_size m (Some i) = Ret m' /\ tree_at m' rt (plug c (N l i (fits l r x) r)) /\ frame m m' [i].
  Proof.
    intros HT SL SR. assert (HC := sub_cell _ _ _ _ _ _ _ HT). unfold fix_size. rewrite (tget_ok _ _ _ HC). cbn [bind].
    assert (HT' := HT). destruct HT' as (HR & _ & _). apply rep_plug in HR as (_ & _ & L & R).
    rewrite (root_size m l _ L SL) by reflexivity. rewrite (root_size_r m r _ R SR) by reflexivity. cbn [bind]. rewrite (tmod_inf _ _ _ _ HC). cbn [n_inf]. eapply set_info_ok. exact HT.
  Qed.
  Fixpoint clen (c : ctx) : nat := match c with Top => 0%nat | CL c _ _ _ | CR c _ _ _ => S (clen c) end.
  Lemma clen_le (c : ctx) : (clen c <= length (cidx c))%nat.
  Proof. induction c as [|c IH i x r|c IH l i x]; cbn [clen cidx]; [lia|..]; cbn [length]; rewrite app_length; cbn [length]; lia. Qed.
  Lemma len_idx_plug (c : ctx) : forall T : bt, length (idx (plug c T)) = (length (cidx c) + length (idx T))%nat.
  Proof. induction c as [|c IH i x r|c IH l i x]; intros T; cbn [plug cidx]; [reflexivity|..]; rewrite IH; cbn [idx length]; rewrite ?app_length; cbn [length]; rewrite ?app_length; lia. Qed.
  Lemma clen_fuel (m : mem) rt c l i x r : tree_at m rt (plug c (N l i x r)) -> (S (clen c) < fuel m)%nat.
  Proof.
    intros (HR & ND & _). assert (H := nodes_mem m _ None HR ND). rewrite nodes_len in H. unfold len in H. rewrite len_idx_plug in H. pose proof (clen_le c). cbn [idx] in H. rewrite app_length in H. cbn [length] in H. unfold fuel. lia.
  Qed.
  Lemma frame_len (m m' : mem) l : frame m m' l -> len m' = len m.
  Proof. intros [H _]. exact H. Qed.
  (** walk to the root from the node of index [i] *)
  Lemma update_size_ok b c l i x r : tree_at (b_mem b) (b_root b) (plug c (N l i x r)) -> sized l -> sized r -> csized c -> b_os b = true ->
    exists m', update_size b (Some i) = Ret (set_mem b m') /\ tree_at m' (b_root b) (up c (N l i (fits l r x) r)) /\ frame (b_mem b) m' (idx (plug c (N l i x r))).
  Proof.
    intros HT SL SR SC HO. unfold update_size. rewrite HO.
    set (T0 := plug c (N l i x r)) in *. 
    set (m0 := b_mem b) in *.
    assert (W : wp (while_loop (fuel m0) (fun '(t, walk) => match walk with None => Ret (Break t) | Some _ => t <- fix_size t walk ;; n <- tget t walk ;; Ret (Next (t, n_parent n)) end) (m0, Some i))
       (fun m' => tree_at m' (b_root b) (up c (N l i (fits l r x) r)) /\ frame m0 m' (idx T0))).
    { eapply (wp_while_g (fun n s => (exists c' l' i' x' r', snd s = Some i' /\ tree_at (fst s) (b_root b) (plug c' (N l' i' x' r')) /\ sized l' /\ sized r' /\ csized c' /\ n = S (clen c') /\ idx (plug c' (N l' i' x' r')) = idx T0 /\
           up c' (N l' i' (fits l' r' x') r') = up c (N l i (fits l r x) r) /\ frame m0 (fst s) (idx T0)) \/
         (snd s = None /\ tree_at (fst s) (b_root b) (up c (N l i (fits l r x) r)) /\ frame m0 (fst s) (idx T0)))).
      - intros n [t walk] [(c' & l' & i' & x' & r' & Ew & HT' & SL' & SR' & SC' & -> & EI & EU & F)|(Ew & HT' & F)]; cbn [fst snd] in *; subst walk; [|cbn [wp]; auto].
        destruct (fix_size_ok t _ _ _ _ _ _ HT' SL' SR') as (t2 & E2 & HT2 & F2). rewrite E2. cbn [bind]. rewrite (tget_ok _ _ _ (sub_cell _ _ _ _ _ _ _ HT2)). cbn [bind n_parent wp].
        assert (F3 : frame m0 t2 (idx T0)). { eapply frame_incl; [exact (frame_trans _ _ _ _ _ F F2)|]. intros z Hz. apply in_app_or in Hz as [Hz|[<-|[]]]; [exact Hz|]. rewrite <- EI. rewrite cnt_In, cnt_plug. cbn [idx]. rewrite cnt_app, cnt_cons, Z.eqb_refl. lia. }
        assert (IE : idx (plug c' (N l' i' (fits l' r' x') r')) = idx T0) by (rewrite <- EI; apply idx_plug_eq; reflexivity).
        destruct c' as [|c' j y q|c' q j y]; cbn [cpar].
        + exists 0%nat. split; [lia|]. right. cbn [fst snd]. cbn [up] in EU. cbn [plug] in HT2. rewrite EU in HT2. auto.
        + exists (S (clen c')). split; [cbn [clen]; lia|]. left. cbn [fst snd csized up] in *. exists c', (N l' i' (fits l' r' x') r'), j, y, q. split; [reflexivity|]. split; [exact HT2|]. cbn [sized fits with_size k_size]. tauto.
        + exists (S (clen c')). split; [cbn [clen]; lia|]. left. cbn [fst snd csized up] in *. exists c', q, j, y, (N l' i' (fits l' r' x') r'). split; [reflexivity|]. split; [exact HT2|]. cbn [sized fits with_size k_size]. tauto.
      - left. exists c, l, i, x, r. cbn [fst snd]. split; [reflexivity|]. split; [exact HT|]. split; [exact SL|]. split; [exact SR|]. split; [exact SC|]. split; [reflexivity|]. split; [reflexivity|]. split; [reflexivity|]. apply frame_refl.
      - apply (clen_fuel _ _ _ _ _ _ _ HT). }
    apply wp_ex in W as (m' & E & H). rewrite E. cbn [bind]. exists m'. auto.
  Qed.

  (** ** insert *)
  Lemma absent key T c : at_key key T c E -> Forall (kis (fun k => k <> key)) (infos T).
  Proof.
    intros (-> & [P1 P2] & _). rewrite infos_plug. cbn [infos app]. apply Forall_app. split; (eapply kis_mono; [|eassumption]); intros k Hk; cbn beta in *; lia.
  Qed.
  Lemma link_right (m m' : mem) rt c l i x s y : tree_at m rt (plug c (N l i x E)) -> ~ In s (idx (plug c (N l i x E))) ->
    cell m' s = Some (mknode y None None (Some i)) -> cell m' i = Some (mknode x (root l) (Some s) (cpar c)) -> (forall z, z <> s -> z <> i -> cell m' z = cell m z) ->
    tree_at m' rt (plug c (N l i x (N E s y E))).
  Proof.
    intros (HR & ND & ->) NI Hs Hi F. apply rep_plug in HR as (C & A & L & _). assert (ND' := ND). rewrite nodup_cnt in ND'.
    rewrite cnt_In in NI. cnts. split; [|split].
    - apply rep_plug. cbn [rep root] in *. split; [eapply crep_ext; [|exact C]|split; [exact Hi|split; [eapply rep_ext; [|exact L]|split; [exact Hs|auto]]]].
      + intros z Hz. apply F; intros ->; [apply cnt_In in Hz; lia|]. clear NI. dj ND'.
      + intros z Hz. apply F; intros ->; [apply cnt_In in Hz; lia|]. clear NI. dj ND'.
    - apply nodup_cnt. intros z. rewrite cnt_plug. specialize (ND' z). rewrite cnt_plug in ND'. cnts. destruct (Z.eqb_spec z s) as [->|]; lia.
    - apply root_plug. reflexivity.
  Qed.
  Lemma link_left (m m' : mem) rt c r i x s y : tree_at m rt (plug c (N E i x r)) -> ~ In s (idx (plug c (N E i x r))) ->
    cell m' s = Some (mknode y None None (Some i)) -> cell m' i = Some (mknode x (Some s) (root r) (cpar c)) -> (forall z, z <> s -> z <> i -> cell m' z = cell m z) ->
    tree_at m' rt (plug c (N (N E s y E) i x r)).
  Proof.
    intros (HR & ND & ->) NI Hs Hi F. apply rep_plug in HR as (C & A & _ & R). assert (ND' := ND). rewrite nodup_cnt in ND'.
    rewrite cnt_In in NI. cnts. split; [|split].
    - apply rep_plug. cbn [rep root] in *. split; [eapply crep_ext; [|exact C]|split; [exact Hi|split; [split; [exact Hs|auto]|eapply rep_ext; [|exact R]]]].
      + intros z Hz. apply F; intros ->; [apply cnt_In in Hz; lia|]. clear NI. dj ND'.
      + intros z Hz. apply F; intros ->; [apply cnt_In in Hz; lia|]. clear NI. dj ND'.
    - apply nodup_cnt. intros z. rewrite cnt_plug. specialize (ND' z). rewrite cnt_plug in ND'. cnts. destruct (Z.eqb_spec z s) as [->|]; lia.
    - apply root_plug. reflexivity.
  Qed.

  Definition addleaf (os : bool) (c : ctx) (i : Z) (x : info) : bt := if os then up c (N E i x E) else plug c (N E i x E).
  Lemma ents_addleaf os c i x : ents (addleaf os c i x) = map ent (cl c) ++ ent x :: map ent (cr c).
  Proof. unfold addleaf. destruct os; rewrite ?ents_up; unfold ents; rewrite infos_plug, !map_app; reflexivity. Qed.
  Lemma idx_addleaf os c i x z : cnt z (idx (addleaf os c i x)) = (cnt z (idx (plug c (@E D))) + (if (z =? i)%Z then 1 else 0))%nat.
  Proof. unfold addleaf. destruct os; rewrite ?idx_up, !cnt_plug; cbn [idx]; cnts; lia. Qed.
  Lemma nodes_addleaf os c i x : nodes (addleaf os c i x) = nodes (plug c (@E D)) + 1.
  Proof. pose proof (nodes_plug c (@E D) (N E i x E)) as H. cbn [nodes] in H. unfold addleaf. destruct os; [|lia]. rewrite (nodes_ents _ _ (ents_up c (N E i x E))). lia. Qed.
  Lemma root_addleaf os c i x : c <> Top -> root (addleaf os c i x) = root (plug c (@E D)).
  Proof. intros HC. unfold addleaf. destruct os; rewrite ?root_up; apply root_plug; congruence. Qed.

  Lemma insert_pre b T key d c0 : default b -> grown b T -> ordered (infos T) -> T <> E -> at_key key T c0 E ->
    exists c b', at_key key T c E /\ c <> Top /\ insert b key d = update_size b' (Some (b_size b)) /\ grown b' (plug c (N E (b_size b) (new_info (Some key) d) E)) /\ b_comp b' = b_comp b /\ b_os b' = b_os b /\ b_size b' = b_size b + 1 /\ b_root b' = b_root b.
  Proof.
    intros HD G HO HE HA. assert (HT := g_at _ _ G). destruct (search_ok b T key HD HT HO HE) as (c1 & S1 & E1 & _ & K1).
    assert (AB := absent _ _ _ HA). assert (S1 = E). { destruct K1 as (ET & _ & [-> | (l & i & x & r & -> & Ek)]); [reflexivity|]. rewrite ET, infos_plug in AB. rewrite !Forall_app in AB. destruct AB as (_ & AB & _). cbn [infos] in AB. apply Forall_app in AB as [_ AB]. inversion AB as [|? ? AX _]; subst. unfold kis in AX. rewrite Ek in AX. congruence. }
    subst S1. cbn [root] in E1. unfold insert. rewrite E1. cbn [bind]. destruct (root_keyed b T HT HO HE) as (n0 & k0 & En & Ek0). rewrite En. cbn [bind]. rewrite Ek0.
    match goal with |- context [while_loop ?f ?bd ?s] => assert (W : wp (while_loop f bd s) (fun r => exists c b', at_key key T c E /\ c <> Top /\ snd r = Some (b_size b) /\ fst r = b' /\ tree_at (b_mem b') (b_root b) (plug c (N E (b_size b) (new_info (Some key) d) E)) /\ a_num (b_arr b') = b_size b + 1 /\ a_last (b_arr b') = b_size b /\ b_size b + 1 <= len (b_mem b') <= 2 * (b_size b + 1) - 1 /\ b_comp b' = b_comp b /\ b_os b' = b_os b /\ b_size b' = b_size b + 1 /\ b_root b' = b_root b)) end.
    { eapply (wp_while_g (fun n s => exists c l i x r, s = (Some i, Some i) /\ T = plug c (N l i x r) /\ path_to key c /\ n = Z.to_nat (nodes (N l i x r)))).
      - intros n s (c & l & i & x & r & -> & ET & HP & ->). rewrite ET in HT, HO, AB. assert (HC := sub_cell _ _ _ _ _ _ _ HT). rewrite (tget_ok _ _ _ HC). cbn [bind]. unfold n_key. cbn [n_inf n_left n_right].
        destruct (ordered_here _ _ _ _ _ HO) as (k & Ek & _ & _ & F1 & F2). rewrite Ek. unfold comparator. rewrite HD. cbn [bind].
        assert (NE : k <> key). { rewrite infos_plug, !Forall_app in AB. destruct AB as (_ & AB & _). cbn [infos] in AB. apply Forall_app in AB as [_ AB]. inversion AB as [|? ? AX _]; subst. unfold kis in AX. rewrite Ek in AX. exact AX. }
        assert (NI : ~ In (b_size b) (idx T)). { intros H. apply (g_idx _ _ G) in H. lia. }
        assert (NIi : i <> b_size b). { intros ->. apply NI. rewrite ET, cnt_In, cnt_plug. cbn [idx]. rewrite cnt_app, cnt_cons, Z.eqb_refl. lia. }
        pose proof (nodes_nonneg l). pose proof (nodes_nonneg r). destruct (Z.ltb_spec key k) as [L|L]; cbn [negb].
        + destruct l as [|ll li lx lr]; cbn [root].
          * destruct (append_ok (b_arr b) (set_parent (Some i) (new_node (Some key) d)) (b_size b) (g_num _ _ G) (g_last _ _ G) (g_cap _ _ G)) as (a & Ea & A1 & A2 & A3 & A4 & A5). rewrite Ea. cbn [bind].
            assert (HCa : cell (a_data a) i = Some (mknode x None (root r) (cpar c))) by (rewrite A5 by exact NIi; exact HC).
            destruct (tmod_step (a_data a) i (set_left (Some (b_size b))) _ HCa) as (m2 & E2 & H2 & FR2). rewrite E2. cbn [bind]. rewrite (tget_ok _ _ _ H2). cbn [bind wp n_left set_left fst snd].
            exists (CL c i x r). eexists. split; [split; [exact ET|]; split; [eapply path_left; eassumption|left; reflexivity]|]. split; [discriminate|]. split; [reflexivity|]. split; [reflexivity|].
            cbn [b_mem set_bsize set_mem set_arr b_arr a_data a_num a_last b_comp b_os b_size b_root]. split; [|rewrite (proj1 FR2); auto 10].
            cbn [plug]. eapply (link_left (b_mem b)); [exact HT|rewrite <- ET; exact NI| |exact H2|].
            -- rewrite (proj2 FR2) by (intros [X|[]]; congruence). exact A4.
            -- intros z Z1 Z2. rewrite (proj2 FR2) by (intros [X|[]]; congruence). apply A5. exact Z1.
          * cbn [wp]. eexists. split; [|exists (CL c i x r), ll, li, lx, lr; split; [reflexivity|]; split; [exact ET|]; split; [eapply path_left; eassumption|reflexivity]]. cbn [nodes] in *. pose proof (nodes_nonneg ll). pose proof (nodes_nonneg lr). lia.
        + destruct r as [|rl ri rx rr]; cbn [root].
          * destruct (append_ok (b_arr b) (set_parent (Some i) (new_node (Some key) d)) (b_size b) (g_num _ _ G) (g_last _ _ G) (g_cap _ _ G)) as (a & Ea & A1 & A2 & A3 & A4 & A5). rewrite Ea. cbn [bind].
            assert (HCa : cell (a_data a) i = Some (mknode x (root l) None (cpar c))) by (rewrite A5 by exact NIi; exact HC).
            destruct (tmod_step (a_data a) i (set_right (Some (b_size b))) _ HCa) as (m2 & E2 & H2 & FR2). rewrite E2. cbn [bind]. rewrite (tget_ok _ _ _ H2). cbn [bind wp n_right set_right fst snd].
            exists (CR c l i x). eexists. split; [split; [exact ET|]; split; [eapply path_right; try eassumption; lia|left; reflexivity]|]. split; [discriminate|]. split; [reflexivity|]. split; [reflexivity|].
            cbn [b_mem set_bsize set_mem set_arr b_arr a_data a_num a_last b_comp b_os b_size b_root]. split; [|rewrite (proj1 FR2); auto 10].
            cbn [plug]. eapply (link_right (b_mem b)); [exact HT|rewrite <- ET; exact NI| |exact H2|].
            -- rewrite (proj2 FR2) by (intros [X|[]]; congruence). exact A4.
            -- intros z Z1 Z2. rewrite (proj2 FR2) by (intros [X|[]]; congruence). apply A5. exact Z1.
          * cbn [wp]. eexists. split; [|exists (CR c l i x), rl, ri, rx, rr; split; [reflexivity|]; split; [exact ET|]; split; [eapply path_right; try eassumption; lia|reflexivity]]. cbn [nodes] in *. pose proof (nodes_nonneg rl). pose proof (nodes_nonneg rr). lia.
      - destruct (root_cell _ _ _ HT HE) as (l & i & x & r & -> & -> & _). exists Top, l, i, x, r. split; [reflexivity|]. split; [reflexivity|]. split; [split; constructor|reflexivity].
      - apply (fuel_ok _ _ _ HT). }
    apply wp_ex in W as ([b1 w] & EW & c & b' & K & NT & Ew & Eb & HT1 & N1 & N2 & N3 & N4 & N5 & N6 & N7). cbn [fst snd] in Ew, Eb. subst w b1. rewrite EW. cbn [bind].
    assert (ETc := proj1 K).
    assert (GI : forall z, In z (idx (addleaf false c (b_size b) (new_info (Some key) d))) -> 0 <= z < b_size b + 1).
    { intros z Hz. rewrite cnt_In, idx_addleaf, <- ETc in Hz. destruct (Z.eqb_spec z (b_size b)) as [Ez|NE].
      - pose proof (g_nodes _ _ G). pose proof (nodes_nonneg T). lia.
      - assert (In z (idx T)) as HI by (apply cnt_In; lia). apply (g_idx _ _ G) in HI. lia. }
    assert (GN : nodes (addleaf false c (b_size b) (new_info (Some key) d)) = b_size b + 1) by (rewrite nodes_addleaf, <- ETc, (g_nodes _ _ G); reflexivity).
    exists c, b'. split; [exact K|]. split; [exact NT|]. split; [reflexivity|]. split; [|auto].
    constructor; rewrite ?N6; rewrite ?N7; try assumption; try lia.
  Qed.
  Lemma insert_new b T key d c0 : default b -> grown b T -> ordered (infos T) -> T <> E -> (b_os b = true -> sized T) -> at_key key T c0 E ->
    exists c b', at_key key T c E /\ c <> Top /\ insert b key d = Ret b' /\ grown b' (addleaf (b_os b) c (b_size b) (new_info (Some key) d)) /\ b_comp b' = b_comp b /\ b_os b' = b_os b /\ b_size b' = b_size b + 1 /\ b_root b' = b_root b.
  Proof.
    intros HD G HO HE HS HA. destruct (insert_pre b T key d c0 HD G HO HE HA) as (c & b' & K & NT & E1 & G1 & N4 & N5 & N6 & N7). exists c. assert (ETc := proj1 K). assert (HT1 := g_at _ _ G1).
    destruct (b_os b) eqn:Eos.
    - destruct (update_size_ok b' c E (b_size b) (new_info (Some key) d) E HT1 I I) as (m3 & E3 & HT3 & F3).
      { rewrite ETc in HS. apply (sized_plug c (@E D)). apply HS. reflexivity. }
      { congruence. }
      exists (set_mem b' m3). split; [exact K|]. split; [exact NT|]. split; [congruence|]. cbn [set_mem b_comp b_os b_size b_root b_mem b_arr]. split; [|auto].
      assert (EI := idx_up c (N E (b_size b) (new_info (Some key) d) E)). unfold addleaf. destruct G1 as [? G12 G13 G14 G15 G16].
      constructor; cbn [set_mem b_comp b_os b_size b_root b_mem b_arr a_data a_num a_last] in *; unfold b_mem in *; try rewrite (proj1 F3); try assumption.
      + intros z Hz. apply G15. rewrite <- EI. exact Hz.
      + rewrite nodes_len in *. rewrite EI. exact G16.
    - exists b'. split; [exact K|]. split; [exact NT|]. split; [rewrite E1; unfold update_size; rewrite N5; reflexivity|]. split; [exact G1|auto].
  Qed.
  Lemma insert_old b T key d c l i x r : default b -> grown b T -> ordered (infos T) -> T <> E -> search b key = Ret (Some i) -> T = plug c (N l i x r) ->
    exists m, insert b key d = Ret (set_mem b m) /\ grown (set_mem b m) (plug c (N l i (with_data d x) r)).
  Proof.
    intros HD G HO HE E1 ET. assert (HT := g_at _ _ G). unfold insert. rewrite E1. cbn [bind root]. assert (HC : cell (b_mem b) i = Some (mknode x (root l) (root r) (cpar c))) by (rewrite ET in HT; apply (sub_cell _ _ _ _ _ _ _ HT)).
    rewrite (tmod_inf _ _ _ _ HC). cbn [n_inf]. rewrite ET in HT. destruct (set_info_ok _ _ _ _ _ _ _ (with_data d x) HT) as (m & Em & HT' & F). rewrite Em. cbn [bind]. exists m. split; [reflexivity|].
    assert (EI : idx (plug c (N l i (with_data d x) r)) = idx T) by (rewrite ET; apply idx_plug_eq; reflexivity).
    destruct G. constructor; cbn [set_mem b_comp b_os b_size b_root b_mem b_arr a_data a_num a_last]; rewrite ?EI; try assumption; unfold b_mem in *; rewrite ?(proj1 F); try assumption.
    rewrite <- g_nodes0, !nodes_len, EI. reflexivity.
  Qed.
  (** both cases *)
  Lemma insert_ok b T key d : default b -> grown b T -> ordered (infos T) -> T <> E -> (b_os b = true -> sized T) ->
    exists c S b', at_key key T c S /\ insert b key d = Ret b' /\ b_comp b' = b_comp b /\ b_os b' = b_os b /\ b_root b' = b_root b /\
      match S with
      | E => c <> Top /\ b_size b' = b_size b + 1 /\ grown b' (addleaf (b_os b) c (b_size b) (new_info (Some key) d))
      | N l i x r => b_size b' = b_size b /\ grown b' (plug c (N l i (with_data d x) r)) /\ search b key = Ret (Some i)
      end.
  Proof.
    intros HD G HO HE HS. destruct (search_ok b T key HD (g_at _ _ G) HO HE) as (c0 & S0 & E0 & _ & K0). destruct S0 as [|l i x r].
    - destruct (insert_new b T key d c0 HD G HO HE HS K0) as (c & b' & K & NT & E1 & G1 & H1 & H2 & H3 & H4). exists c, E, b'. auto 10.
    - destruct (insert_old b T key d c0 l i x r HD G HO HE E0 (proj1 K0)) as (m & E1 & G1). exists c0, (N l i x r), (set_mem b m). cbn [set_mem b_comp b_os b_root b_size]. auto 10.
  Qed.
End Bst.
