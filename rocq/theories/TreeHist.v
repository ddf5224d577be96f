(** Histories of inserts (and then deletes) on BinarySearchTree. *)
From Coq Require Import Sorting.Sorted.
From Verif Require Import Base TreeModel TreeSpec TreeProofs TreeRotate TreeBst TreeTrav TreeQuery TreeLca TreeDel.

Section Hist.
  Context {D : Type}.
  Notation info := (info D). Notation node := (node D). Notation mem := (mem D). Notation bst := (bst D). Notation bt := (bt D). Notation ctx := (ctx D).
  Definition okeys (l : list (Z * option D)) : list (option Z * option D) := map (fun e => (Some (fst e), snd e)) l.
  Definition entry (x : info) : Z * option D := (match k_key x with Some k => k | None => 0 end, k_data x).
  Lemma entries_ok (l : list info) : ordered l -> StronglySorted Z.lt (map fst (map entry l)) /\ map ent l = okeys (map entry l).
  Proof.
    intros [H1 H2]. induction l as [|x l IH]; [split; [constructor|reflexivity]|]. inversion H1 as [|? ? K1 K2]; subst. apply StronglySorted_inv in H2 as [S1 S2]. destruct (IH K2 S1) as [A B]. unfold kis in K1.
    destruct (k_key x) as [k|] eqn:Ek; [|destruct K1]. split.
    - cbn [map]. constructor; [exact A|]. rewrite map_map, Forall_map. rewrite Forall_forall in *. intros y Hy. specialize (S2 y Hy). unfold klt in S2. unfold entry. cbn [fst]. rewrite Ek in *. destruct (k_key y); [exact S2|destruct S2].
    - cbn [map okeys]. f_equal; [unfold ent, entry; cbn [fst snd]; rewrite Ek; reflexivity|exact B].
  Qed.
  Lemma okeys_In l k d : In (Some k, d) (okeys l) <-> In (k, d) l.
  Proof. unfold okeys. rewrite in_map_iff. split; [intros ((k' & d') & [= -> ->] & H); exact H|intros H; exists (k, d); auto]. Qed.

  Lemma last_app (h : list (Z * option D)) k d x : last_data (h ++ [(k, d)]) x = if x =? k then Some d else last_data h x.
  Proof. induction h as [|[k' d'] h IH]; cbn [app last_data]; [destruct (x =? k); reflexivity|]. rewrite IH. destruct (x =? k); reflexivity. Qed.

  Definition rkey (T : bt) : option Z := match T with E => None | N _ _ x _ => k_key x end.
  Lemma rkey_plug (c : ctx) : forall S S' : bt, (c = Top -> rkey S = rkey S') -> rkey (plug c S) = rkey (plug c S').
  Proof. induction c as [|c IH j x r|c IH l j x]; intros S S' H; cbn [plug]; [apply H; reflexivity|apply IH; reflexivity|apply IH; reflexivity]. Qed.
  Lemma rkey_up (c : ctx) : forall S : bt, rkey (up c S) = rkey (plug c S).
  Proof. induction c as [|c IH j x r|c IH l j x]; intros S; cbn [plug up]; [reflexivity|..]; rewrite IH; apply rkey_plug; reflexivity. Qed.
  Record good (b : bst) (T : bt) (h : list (Z * option D)) : Prop := {
    h_def : default b; h_root : b_root b = Some 0; h_grown : grown b T; h_ord : ordered (infos T); h_ne : T <> E; h_sz : b_os b = true -> sized T;
    h_in : forall k d, In (Some k, d) (ents T) <-> last_data h k = Some d;
    h_first : rkey T = match h with [] => None | (k, _) :: _ => Some k end }.

  Lemma put_in (a : list info) (e : list (option Z * option D)) r key d k d0 : (e = [] \/ exists dd, e = [(Some key, dd)]) ->
    Forall (kis (fun k => k < key)) a -> Forall (kis (fun k => key < k)) r ->
    (In (Some k, d0) (map ent a ++ (Some key, d) :: map ent r) <-> if k =? key then d0 = d else In (Some k, d0) (map ent a ++ e ++ map ent r)).
  Proof.
    intros He Fa Fr.
    assert (NA : forall (l : list info) (P : Z -> Prop), Forall (kis P) l -> ~ P key -> forall d1, ~ In (Some key, d1) (map ent l)).
    { intros l P F NP d1 X. apply in_map_iff in X as (y & Ey & Hy). rewrite Forall_forall in F. specialize (F y Hy). unfold kis in F. injection Ey as Ek _. rewrite Ek in F. exact (NP F). }
    destruct (Z.eqb_spec k key) as [Ek|NE].
    - rewrite Ek. rewrite in_app_iff. cbn [In]. split; [|intros ->; auto]. intros [X|[X|X]]; [destruct (NA _ _ Fa) with (d1 := d0); [lia|exact X]|congruence|destruct (NA _ _ Fr) with (d1 := d0); [lia|exact X]].
    - rewrite !in_app_iff. cbn [In]. split.
      + intros [X|[X|X]]; [auto|congruence|auto].
      + intros [X|[X|X]]; [auto| |auto]. destruct He as [-> | (dd & ->)]; [destruct X|]. destruct X as [X|[]]. congruence.
  Qed.

  Lemma insert_step b T h k d : good b T h -> exists b' T', insert b k d = Ret b' /\ good b' T' (h ++ [(k, d)]) /\ b_os b' = b_os b.
  Proof.
    intros G. destruct G as [GD GR GG GO GE GS GI GF]. assert (EF : match h ++ [(k, d)] with [] => None | (k, _) :: _ => Some k end = rkey T).
    { rewrite GF. destruct h as [|[k1 d1] h]; [|reflexivity]. exfalso. destruct T as [|l0 i0 x0 r0]; [congruence|]. cbn [rkey] in GF. destruct (ordered_here Top _ _ _ _ GO) as (kr & Ekr & _). congruence. }
    destruct (insert_ok b T k d GD GG GO GE GS) as (c & S & b' & (ET & [P1 P2] & HS) & E1 & H1 & H2 & H3 & HM).
    destruct HS as [ES|(l & i & x & r & ES & Ek)]; rewrite ES in *.
    - destruct HM as (NT & Hsz & G'). exists b', (addleaf (b_os b) c (b_size b) (new_info (Some k) d)). split; [exact E1|]. split; [|exact H2].
      assert (EN := ents_addleaf (b_os b) c (b_size b) (new_info (Some k) d)). unfold ent at 2 in EN. cbn [new_info k_key k_data] in EN.
      split; [unfold default in *; congruence|congruence|exact G'| | | | |].
      + apply (ordered_ents (plug c (N E (b_size b) (new_info (Some k) d) E))); [rewrite EN; unfold ents; rewrite infos_plug, !map_app; reflexivity|].
        rewrite infos_plug. cbn [infos app]. rewrite ET, infos_plug in GO. cbn [infos app] in GO. apply ordered_app in GO as (O1 & O2 & _). apply ordered_mid. split; [exact O1|]. split; [exact O2|]. exists k. auto.
      + intros X. apply (f_equal nodes) in X. rewrite nodes_addleaf in X. cbn [nodes] in X. pose proof (nodes_nonneg (plug c (@E D))). lia.
      + intros HO. rewrite H2 in HO. specialize (GS HO). rewrite ET in GS. apply sized_plug in GS as [_ GS]. unfold addleaf. rewrite HO. apply sized_up; [cbn [sized new_info k_size nodes]; auto|exact GS].
      + intros k0 d0. rewrite EN, last_app, (put_in (cl c) [] (cr c) k d k0 d0) by auto. specialize (GI k0 d0). rewrite ET in GI. unfold ents in GI. rewrite infos_plug in GI. cbn [infos app] in GI. rewrite map_app in GI. cbn [app]. destruct (k0 =? k); [|exact GI]. split; congruence.
      + rewrite EF. unfold addleaf. destruct (b_os b); rewrite ?rkey_up, ET; apply rkey_plug; congruence.
    - destruct HM as (Hsz & G' & _). exists b', (plug c (N l i (with_data d x) r)). split; [exact E1|]. split; [|exact H2].
      rewrite ET in *. split; [unfold default in *; congruence|congruence|exact G'| | | | |].
      + eapply ordered_keys; [|exact GO]. rewrite !infos_plug. cbn [infos]. rewrite !map_app. reflexivity.
      + destruct c; cbn [plug]; [discriminate| |]; intros X; apply (f_equal nodes) in X; cbn [nodes] in X; match type of X with nodes (plug ?a ?b) = _ => pose proof (nodes_plug_le a b) as Q; cbn [nodes] in Q end; pose proof (nodes_nonneg l); pose proof (nodes_nonneg r); try pose proof (nodes_nonneg r0); try pose proof (nodes_nonneg l0); lia.
      + intros HO. rewrite H2 in HO. specialize (GS HO). clear - GS. revert GS. assert (Q : forall S S' : bt, nodes S = nodes S' -> (sized S -> sized S') -> sized (plug c S) -> sized (plug c S')).
        { induction c as [|c IH j y r0|c IH l0 j y]; intros S S' Hn HS; cbn [plug]; [exact HS|..]; apply IH; cbn [nodes sized]; try (rewrite Hn; reflexivity); rewrite Hn; tauto. }
        apply Q; [reflexivity|cbn [sized with_data k_size]; auto].
      + intros k0 d0. specialize (GI k0 d0). unfold ents in *. rewrite infos_plug in *. cbn [infos] in *. rewrite last_app.
        assert (F1 := GO). rewrite <- !app_assoc in GO. cbn [app] in GO. rewrite app_assoc in GO. apply ordered_mid in GO as (_ & _ & k1 & Ek1 & F2 & F3). rewrite Ek in Ek1. injection Ek1 as <-.
        assert (A := put_in (cl c ++ infos l) [(Some k, k_data x)] (infos r ++ cr c) k d k0 d0 ltac:(eauto) F2 F3).
        rewrite !map_app in *. cbn [map] in *. rewrite <- !app_assoc in *. cbn [app] in *. change (ent (with_data d x)) with (k_key x, d). change (ent x) with (k_key x, k_data x) in GI. rewrite Ek in *. rewrite A. destruct (k0 =? k); [split; congruence|exact GI].
      + rewrite EF. apply rkey_plug. reflexivity.
  Qed.
  Lemma insert_all_ok h : forall b T h0, good b T h0 -> exists b' T', insert_all b h = Ret b' /\ good b' T' (h0 ++ h) /\ b_os b' = b_os b.
  Proof.
    induction h as [|[k d] h IH]; intros b T h0 G; cbn [insert_all]; [exists b, T; rewrite app_nil_r; auto|].
    destruct (insert_step b T h0 k d G) as (b1 & T1 & E1 & G1 & O1). rewrite E1. cbn [bind]. destruct (IH _ _ _ G1) as (b2 & T2 & E2 & G2 & O2). exists b2, T2. rewrite <- app_assoc in G2. cbn [app] in G2. split; [exact E2|]. split; [exact G2|congruence].
  Qed.
  Definition fresh (os : bool) : bst := mkbst (mkaft [Some (set_inf (with_isroot true) (new_node None None))] 1 0) (Some 0) 1 None os.
  Lemma one_good (os : bool) k (d : option D) : good (mkbst (mkaft [Some (set_inf (with_isroot true) (new_node (Some k) d))] 1 0) (Some 0) 1 None os) (N E 0 (with_isroot true (new_info (Some k) d)) E) [(k, d)].
  Proof.
    split; [reflexivity|reflexivity| | |discriminate|intros _; cbn; auto| |reflexivity].
    - split; try (cbn; lia). split; [cbn; auto|]. split; [|reflexivity]. constructor; [intros []|constructor].
    - split; [constructor; [unfold kis; cbn; exact I|constructor]|constructor; constructor].
    - intros k0 d0. cbn. destruct (Z.eqb_spec k0 k) as [Ek|NE]; [rewrite Ek|]; split.
      + intros [H|[]]. injection H as H. rewrite H. reflexivity.
      + intros H. left. injection H as H. rewrite H. reflexivity.
      + intros [H|[]]. injection H as H1 H2. congruence.
      + discriminate.
  Qed.
  Lemma fresh_insert os k d : insert (fresh os) k d = Ret (mkbst (mkaft [Some (set_inf (with_isroot true) (new_node (Some k) d))] 1 0) (Some 0) 1 None os).
  Proof. reflexivity. Qed.
  Lemma build_ok start os h : started start ++ h <> [] -> exists b T, build start None os h = Ret b /\ good b T (started start ++ h) /\ b_os b = os.
  Proof.
    intros NE. unfold build. destruct start as [[k d]|]; cbn [option_map fst snd bst_new bind started app] in *.
    - destruct (insert_all_ok h _ _ _ (one_good os k (Some d))) as (b & T & E1 & G & O). exists b, T. cbn [b_os] in O. auto.
    - change (bind _ _) with (insert_all (fresh os) h). destruct h as [|[k d] h]; [congruence|]. cbn [insert_all]. rewrite fresh_insert. cbn [bind].
      destruct (insert_all_ok h _ _ _ (one_good os k d)) as (b & T & E1 & G & O). exists b, T. cbn [b_os app] in *. auto.
  Qed.
  Lemma build_empty os : build None None os [] = Ret (fresh os).
  Proof. reflexivity. Qed.
  Definition entries (T : bt) : list (Z * option D) := map entry (infos T).
  Lemma good_map b T h : good b T h -> sorted_map (entries T) h.
  Proof.
    intros G. destruct (entries_ok (infos T) (h_ord _ _ _ G)) as [A B]. split; [exact A|]. intros k d. rewrite <- (h_in _ _ _ G k d). unfold ents. rewrite B, okeys_In. reflexivity.
  Qed.
  Lemma wfinds b T : default b -> wtree (b_mem b) (b_root b) T -> ordered (infos T) -> T <> E -> finds b (entries T).
  Proof.
    intros HD HT HO HE k. destruct (wsearch b T k HD HT HO HE) as (c & S & E1 & _ & HK). assert (HK0 := HK). destruct HK as (ET & HP & [-> | (l & i & x & r & -> & Ek)]).
    - assert (AB := absent _ _ _ HK0). destruct (find (fun e => fst e =? k) (entries T)) as [e|] eqn:Ef; [|exact E1]. exfalso. apply find_some in Ef as [Hi He]. unfold entries in Hi. apply in_map_iff in Hi as (y & <- & Hy). unfold entry in He. cbn [fst] in He. rewrite Forall_forall in AB. specialize (AB y Hy). unfold kis in AB. destruct (k_key y); [lia|exact AB].
    - assert (HX : In x (infos T)) by (rewrite ET, infos_plug; cbn [infos]; rewrite !in_app_iff; cbn [In]; auto). destruct (wsub (b_mem b) (b_root b) c l i x r) as (p & HC); [rewrite <- ET; apply HT|].
      assert (exists e, find (fun e => fst e =? k) (entries T) = Some e /\ snd e = k_data x) as (e & -> & Ee).
      { assert (Hx : In (entry x) (entries T)) by (apply in_map; exact HX). assert (Ex : entry x = (k, k_data x)) by (unfold entry; rewrite Ek; reflexivity).
        destruct (find (fun e => fst e =? k) (entries T)) as [e|] eqn:Ef.
        - exists e. split; [reflexivity|]. apply find_some in Ef as [Hi He]. unfold entries in Hi. apply in_map_iff in Hi as (y & <- & Hy). unfold entry in *. cbn [fst snd] in *.
          f_equal. f_equal. assert (EY : k_key y = Some k). { destruct (k_key y) as [ky|] eqn:E0; [f_equal; lia|]. destruct HO as [HO _]. rewrite Forall_forall in HO. specialize (HO y Hy). unfold kis in HO. rewrite E0 in HO. destruct HO. }
          destruct (in_split _ _ HX) as (l1 & l2 & EL). rewrite EL in HO, Hy. apply ordered_mid in HO as (_ & _ & k1 & Ek1 & F1 & F2). rewrite Ek in Ek1. injection Ek1 as <-. apply in_app_or in Hy as [Hy|[Hy|Hy]]; [|auto|].
          + rewrite Forall_forall in F1. specialize (F1 y Hy). unfold kis in F1. rewrite EY in F1. lia.
          + rewrite Forall_forall in F2. specialize (F2 y Hy). unfold kis in F2. rewrite EY in F2. lia.
        - exfalso. apply (find_none _ _ Ef) in Hx. rewrite Ex in Hx. cbn [fst] in Hx. lia. }
      exists i, (mknode x (root l) (root r) p). split; [exact E1|]. split; [apply tget_ok; exact HC|]. split; [exact Ek|]. symmetry. exact Ee.
  Qed.

  Lemma okeys_inj a b : okeys a = okeys b -> a = b.
  Proof. revert b. induction a as [|[k d] a IH]; intros [|[k' d'] b] H; try discriminate; [reflexivity|]. cbn [okeys map fst snd] in H. injection H as H1 H2 H3. subst. f_equal. apply IH. exact H3. Qed.
  Lemma ents_okeys (T : bt) : ordered (infos T) -> ents T = okeys (entries T).
  Proof. intros H. apply (entries_ok _ H). Qed.
  Lemma without_okeys key l : without key (okeys l) = okeys (filter (fun e => negb (fst e =? key)) l).
  Proof. induction l as [|[k d] l IH]; [reflexivity|]. unfold without, okeys in *. cbn [map filter fst snd]. cbn [oeqb]. destruct (k =? key); cbn [negb map fst snd]; rewrite IH; reflexivity. Qed.
  Lemma has_okeys (key : Z) l : In (Some key) (map fst (okeys l)) <-> existsb (fun e => fst e =? key) l = true.
  Proof.
    rewrite existsb_exists. unfold okeys. rewrite map_map, in_map_iff. cbn [fst]. split; intros (e & H1 & H2); exists e; [injection H1 as H1; split; [exact H2|lia]|split; [f_equal; lia|exact H1]].
  Qed.
  Lemma delete_all_ok ks : forall b T, default b -> b_os b = false -> sparse b T -> ordered (infos T) -> T <> E -> len (b_mem b) <= 4 * (nodes T - len ks) ->
    exists b' T', delete_all b ks = Ret (b', snd (deleted (entries T) ks)) /\ default b' /\ sparse b' T' /\ ordered (infos T') /\ T' <> E /\ entries T' = fst (deleted (entries T) ks).
  Proof.
    induction ks as [|k ks IH]; intros b T HD HOS SP HO HE HL; cbn [delete_all deleted]; [exists b, T; cbn [fst snd]; auto 10|].
    assert (LK : len (k :: ks) = len ks + 1) by (unfold len; cbn [length]; lia). pose proof (len_nonneg _ ks). pose proof (nodes_nonneg T).
    destruct (delete_ok b T k HD HOS SP HO HE ltac:(lia)) as (b1 & T1 & f & E1 & Hf & SP1 & EE & HE1 & HN & HLn & HC & HOs). rewrite E1. cbn [bind].
    assert (O1 : ordered (infos T1)) by (apply (ordered_without k (infos T)); assumption).
    assert (EN : entries T1 = filter (fun e => negb (fst e =? k)) (entries T)). { apply okeys_inj. rewrite <- ents_okeys, EE, ents_okeys, without_okeys by assumption. reflexivity. }
    destruct (IH b1 T1 ltac:(unfold default in *; congruence) ltac:(congruence) SP1 O1 HE1 ltac:(lia)) as (b2 & T2 & E2 & D2 & SP2 & O2 & HE2 & EN2). rewrite E2. cbn [bind]. rewrite EN in *.
    destruct (deleted (filter (fun e => negb (fst e =? k)) (entries T)) ks) as [l' fs]. cbn [fst snd] in *. exists b2, T2. split; [|auto 10].
    f_equal. f_equal. f_equal. rewrite ents_okeys, has_okeys in Hf by assumption. destruct f, (existsb (fun e => fst e =? k) (entries T)); try reflexivity; [symmetry; apply Hf; reflexivity|apply Hf; reflexivity].
  Qed.
  Lemma grown_sparse (b : bst) (T : bt) : grown b T -> sparse b T.
  Proof. intros G. destruct G as [G1 G2 G3 G4 G5 G6]. split; [apply tree_wtree; exact G1|congruence|]. intros i Hi. specialize (G5 i Hi). lia. Qed.
  Lemma in_order_w (b : bst) (T : bt) : wtree (b_mem b) (b_root b) T -> T <> E -> in_order (b_mem b) (b_root b) = Ret (infos T).
  Proof. intros (H1 & H2 & H3) HE. rewrite H3. destruct T as [|l i x r]; [congruence|]. apply (win_order _ _ _ H1 H2). reflexivity. Qed.
  Lemma len_entries T : len (entries T) = nodes T.
  Proof. rewrite <- infos_len. unfold entries, len. rewrite map_length. reflexivity. Qed.

  (** [l] sorted and with the members of the map: unique *)
  Lemma ss_ext (a b : list Z) : StronglySorted Z.lt a -> StronglySorted Z.lt b -> (forall k, In k a <-> In k b) -> a = b.
  Proof.
    revert b. induction a as [|x a IH]; intros b Sa Sb H.
    - destruct b as [|y b]; [reflexivity|]. exfalso. apply (H y). left. reflexivity.
    - destruct b as [|y b]; [exfalso; apply (H x); left; reflexivity|]. apply StronglySorted_inv in Sa as [Sa Fa]. apply StronglySorted_inv in Sb as [Sb Fb]. rewrite Forall_forall in *.
      assert (x = y). { destruct (proj1 (H x) (or_introl eq_refl)) as [E1|E1]; [congruence|]. destruct (proj2 (H y) (or_introl eq_refl)) as [E2|E2]; [congruence|]. specialize (Fa _ E2). specialize (Fb _ E1). lia. }
      subst y. f_equal. apply IH; [assumption..|]. intros k. specialize (H k). cbn [In] in H. split; intros Hk.
      + specialize (Fa _ Hk). destruct (proj1 H (or_intror Hk)); [lia|assumption].
      + specialize (Fb _ Hk). destruct (proj2 H (or_intror Hk)); [lia|assumption].
  Qed.
  Lemma lookup_in (l : list (Z * option D)) k d d' : StronglySorted Z.lt (map fst l) -> In (k, d) l -> In (k, d') l -> d = d'.
  Proof.
    induction l as [|[k0 d0] l IH]; cbn [map fst]; intros S H1 H2; [destruct H1|]. apply StronglySorted_inv in S as [S F]. rewrite Forall_forall in F.
    destruct H1 as [H1|H1], H2 as [H2|H2]; [congruence| | |auto].
    - injection H1 as E1 _. specialize (F k). rewrite in_map_iff in F. specialize (F ltac:(exists (k, d'); auto)). lia.
    - injection H2 as E1 _. specialize (F k). rewrite in_map_iff in F. specialize (F ltac:(exists (k, d); auto)). lia.
  Qed.
  (** queries in terms of the entries *)
  Lemma first_above_least u key (l : list info) : ordered l -> least (fun k => above u key k = true) (map fst (map entry l)) (first_above u key l).
  Proof.
    intros [H1 H2]. induction l as [|x l IH]; [intros k []|]. inversion H1 as [|? ? K1 K2]; subst. apply StronglySorted_inv in H2 as [S1 S2]. specialize (IH K2 S1). cbn [first_above map fst]. unfold kis in K1. destruct (k_key x) as [k|] eqn:Ek; [|destruct K1].
    unfold entry at 1. cbn [fst]. rewrite Ek. destruct (above u key k) eqn:EA.
    - split; [left; reflexivity|]. split; [exact EA|]. intros k' [<-|Hk] _; [lia|]. rewrite map_map, in_map_iff in Hk. destruct Hk as (y & <- & Hy). rewrite Forall_forall in S2. specialize (S2 y Hy). unfold klt in S2. unfold entry. cbn [fst]. rewrite Ek in S2. destruct (k_key y); [lia|destruct S2].
    - destruct (first_above u key l) as [z|]; cbn [least] in *.
      + destruct IH as (A & B & C). split; [right; exact A|]. split; [exact B|]. intros k' [<-|Hk] HP; [congruence|auto].
      + intros k' [<-|Hk]; [congruence|auto].
  Qed.
  Lemma count_le_entries x (l : list info) : ordered l -> count_le x l = len (filter (fun k => k <=? x) (map fst (map entry l))).
  Proof.
    intros [H1 _]. unfold count_le, len. f_equal. induction H1 as [|y l K1 _ IH]; [reflexivity|]. cbn [map filter]. unfold kis in K1. destruct (k_key y) as [k|] eqn:Ek; [|destruct K1]. unfold entry at 1. cbn [fst]. rewrite Ek. cbn [fst]. destruct (k <=? x); cbn [length]; rewrite IH; reflexivity.
  Qed.
  Lemma existsb_entries x (l : list info) : ordered l -> existsb (fun y => oeqb (k_key y) (Some x)) l = existsb (fun k => k =? x) (map fst (map entry l)).
  Proof.
    intros [H1 _]. induction H1 as [|y l K1 _ IH]; [reflexivity|]. cbn [map existsb]. unfold kis in K1. destruct (k_key y) as [k|] eqn:Ek; [|destruct K1]. unfold entry at 1. cbn [fst]. rewrite Ek. cbn [fst oeqb]. rewrite IH. reflexivity.
  Qed.

  Lemma sorted_map_unique (l l' h : list (Z * option D)) : sorted_map l h -> sorted_map l' h -> l = l'.
  Proof.
    intros SM SG. assert (EK : map fst l = map fst l').
    { apply ss_ext; [apply SM|apply SG|]. intros k. rewrite !in_map_iff. split; intros ((k0 & d) & <- & H); exists (k0, d); (split; [reflexivity|]); [apply SG, SM, H|apply SM, SG, H]. }
    assert (Q : forall (a a' : list (Z * option D)), map fst a = map fst a' -> (forall k d d', In (k, d) a -> In (k, d') a' -> d = d') -> a = a').
    { induction a as [|[k d] a IH]; intros [|[k' d'] a'] Ek Hd; try discriminate; [reflexivity|]. cbn [map fst] in Ek. injection Ek as -> Ek. f_equal; [f_equal; apply (Hd k'); left; reflexivity|]. apply IH; [exact Ek|]. intros k0 d0 d0' H1 H2. apply (Hd k0); right; assumption. }
    apply Q; [exact EK|]. intros k d d' H1 H2. apply SM in H1. apply SG in H2. congruence.
  Qed.
  Lemma count_sorted (l : list Z) : forall i x, StronglySorted Z.lt l -> nth_error l i = Some x -> len (filter (fun k => k <=? x) l) = Z.of_nat i + 1.
  Proof.
    induction l as [|y l IH]; intros i x S E1; [destruct i; discriminate|]. apply StronglySorted_inv in S as [S F]. rewrite Forall_forall in F. destruct i as [|i]; cbn [nth_error] in E1.
    - injection E1 as ->. cbn [filter]. replace (x <=? x) with true by lia. unfold len. cbn [length]. replace (filter (fun k => k <=? x) l) with (@nil Z); [reflexivity|]. symmetry. clear IH S. induction l as [|z l IH]; [reflexivity|]. cbn [filter]. assert (x < z) by (apply F; left; reflexivity). replace (z <=? x) with false by lia. apply IH. intros w Hw. apply F. right. exact Hw.
    - assert (y < x) by (apply F; eapply nth_error_In; exact E1). cbn [filter]. replace (y <=? x) with true by lia. specialize (IH i x S E1). unfold len in *. cbn [length]. lia.
  Qed.
  Lemma good_has b T h : good b T h -> forall x, has T x <-> last_data h x <> None.
  Proof.
    intros G x. unfold has. split.
    - intros (y & Hy & Ek). assert (X := proj1 (h_in _ _ _ G x (k_data y))). rewrite X; [discriminate|]. unfold ents. apply in_map_iff. exists y. split; [unfold ent; rewrite Ek; reflexivity|exact Hy].
    - intros H. destruct (last_data h x) as [d|] eqn:Ed; [|congruence]. apply (h_in _ _ _ G) in Ed. unfold ents in Ed. apply in_map_iff in Ed as (y & Ey & Hy). exists y. split; [exact Hy|]. injection Ey as Ey _. exact Ey.
  Qed.
  Lemma insert_all_app (b : bst) h1 h2 : insert_all b (h1 ++ h2) = (b1 <- insert_all b h1 ;; insert_all b1 h2).
  Proof. revert b. induction h1 as [|[k d] h1 IH]; intros b; cbn [app insert_all bind]; [reflexivity|]. destruct (insert b k d); cbn [bind]; [apply IH|reflexivity..]. Qed.
  Lemma build_root start os h first rest : started start ++ h = first :: rest -> exists b T, build start None os h = Ret b /\ good b T (started start ++ h) /\ exists l i x r, T = N l i x r /\ k_key x = Some (fst first).
  Proof.
    intros EH. destruct (build_ok start os h) as (b & T & E1 & G & _); [rewrite EH; discriminate|]. exists b, T. split; [exact E1|]. split; [exact G|]. assert (HF := h_first _ _ _ G). rewrite EH in HF. destruct first as [k d]. cbn [fst]. destruct T as [|l i x r]; [discriminate|]. exists l, i, x, r. auto.
  Qed.
  Lemma sub_has (S T : bt) x : subtree S T -> has S x -> has T x.
  Proof. induction 1 as [|l i y r _ IH|l i y r _ IH]; [auto|..]; intros H; destruct (IH H) as (z & Hz & Ez); exists z; (split; [|exact Ez]); cbn [infos]; rewrite in_app_iff; cbn [In]; auto. Qed.
  Lemma has_both (l r : bt) i y x : ordered (infos (N l i y r)) -> has l x -> has r x -> False.
  Proof.
    intros HO (a & Ha & Ea) (c & Hc & Ec). destruct (ordered_here Top _ _ _ _ HO) as (k & _ & _ & _ & F1 & F2). cbn [cl cr app] in *. rewrite app_nil_r in F2. rewrite Forall_forall in *. specialize (F1 a Ha). specialize (F2 c Hc). unfold kis in *. rewrite Ea in F1. rewrite Ec in F2. lia.
  Qed.
  Lemma sub_N (S : bt) l i y r : subtree S (N l i y r) -> S = N l i y r \/ subtree S l \/ subtree S r.
  Proof. intros H. inversion H; auto. Qed.
  Lemma is_lca_unique (T : bt) j k z z' : ordered (infos T) -> is_lca T j k z -> is_lca T j k z' -> z = z'.
  Proof.
    induction T as [|l IHl i y r IHr]; intros HO (l1 & i1 & x1 & r1 & S1 & E1 & J1 & K1 & NL1 & NR1) (l2 & i2 & x2 & r2 & S2 & E2 & J2 & K2 & NL2 & NR2); [inversion S1|].
    assert (OL : ordered (infos l)) by (cbn [infos] in HO; apply ordered_app in HO; tauto). assert (OR : ordered (infos r)) by (cbn [infos] in HO; apply ordered_mid in HO; tauto).
    apply sub_N in S1. apply sub_N in S2. destruct S1 as [S1|[S1|S1]], S2 as [S2|[S2|S2]].
    - rewrite <- S2 in S1. injection S1 as -> -> -> ->. congruence.
    - injection S1 as -> -> -> ->. destruct NL1. split; eapply sub_has; eassumption.
    - injection S1 as -> -> -> ->. destruct NR1. split; eapply sub_has; eassumption.
    - injection S2 as -> -> -> ->. destruct NL2. split; eapply sub_has; eassumption.
    - apply IHl; [exact OL|exists l1, i1, x1, r1; auto 10|exists l2, i2, x2, r2; auto 10].
    - destruct (has_both l r i y j HO); eapply sub_has; eassumption.
    - injection S2 as -> -> -> ->. destruct NR2. split; eapply sub_has; eassumption.
    - destruct (has_both l r i y j HO); eapply sub_has; eassumption.
    - apply IHr; [exact OR|exists l1, i1, x1, r1; auto 10|exists l2, i2, x2, r2; auto 10].
  Qed.
End Hist.
Lemma list_eq_dec_nil {A} (l : list A) : {l = []} + {l <> []}.
Proof. destruct l; [left; reflexivity|right; discriminate]. Qed.
