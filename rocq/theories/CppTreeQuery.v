(** Proofs: select, _simple_path and _lca_1 of the C++ backend. They differ from the Python code, so each is first compared with a variant of the Python
    model that has the C++ differences ([select_strict], [path_nt], [lca_nt]); the variants are then shown right on trees. *)
From Verif Require Import Base TreeModel TreeSpec TreeProofs TreeRotate TreeBst TreeTrav TreeQuery TreeLca TreeDel TreeHist TreeMulti TreeHist2Spec TreeHist2 TreeHist3 CppArrayModel CppTreeModel.

Section Variants.
  Context {D : Type}.
  Notation info := (info D). Notation node := (node D). Notation bst := (bst D). Notation bt := (bt D). Notation ctx := (ctx D).
  (** select as BinarySearchTree.hpp 591-660: the child is read before it is known to exist *)
  Definition select_strict (b : bst) (i : Z) : res (option node) :=
    let t := b_mem b in
    let i := i - 1 in
    if i <? 0 then Raise ValueError
    else if a_num (b_arr b) <=? i then Raise ValueError
    else while_loop (fuel t) (fun '(walk, i) =>
      match walk with
      | None => Ret (Break None)
      | Some _ =>
        n <- tget t walk ;;
        l <- left_size t n ;;
        if i =? l then Ret (Break (Some n))
        else
          match n_left n, n_right n with
          | None, None => Raise IndexError
          | _, _ =>
            if i <? l then
              m <- tget t (n_left n) ;; c <- comparator b (n_key m) (n_key n) ;;
              Ret (Next (if negb (is_none (n_left n)) && (c : bool) then n_left n else n_right n, i))
            else
              m <- tget t (n_right n) ;; c <- comparator b (n_key m) (n_key n) ;;
              Ret (Next (if negb (is_none (n_right n)) && negb c then n_right n else n_left n, i - (l + 1)))
          end
      end) (b_root b, i).
  Lemma select_strict_ok b T i : default b -> tree_at (b_mem b) (b_root b) T -> ordered (infos T) -> sized T -> a_num (b_arr b) = nodes T ->
    1 <= i <= nodes T -> exists n x, select_strict b i = Ret (Some n) /\ n_inf n = x /\ nthi (infos T) (i - 1) = Some x.
  Proof.
    intros HD HT HO HS HN HI. assert (W : wp (select_strict b i) (fun r => exists n, r = Some n /\ nthi (infos T) (i - 1) = Some (n_inf n))).
    { unfold select_strict. destruct (Z.ltb_spec (i - 1) 0); [lia|]. destruct (Z.leb_spec (a_num (b_arr b)) (i - 1)); [lia|].
      eapply (wp_while_g (fun n st => exists c S, T = plug c S /\ fst st = root S /\ 0 <= snd st < nodes S /\ nthi (infos S) (snd st) = nthi (infos T) (i - 1) /\ n = Z.to_nat (nodes S))).
      - intros n [walk j] (c & S & ET & Ew & Hj & Ej & ->). cbn [fst snd] in *. subst walk. destruct S as [|l q x r]; [cbn [nodes] in Hj; lia|]. cbn [root].
        assert (HT1 := HT). assert (HO1 := HO). assert (HS1 := HS). rewrite ET in HT1, HO1, HS1. apply sized_plug in HS1 as [HS1 _]. destruct HS1 as (_ & HSl & HSr).
        assert (HC := sub_cell _ _ _ _ _ _ _ HT1). rewrite (tget_ok _ _ _ HC). cbn [bind]. assert (HT2 := HT1). destruct HT2 as (HR & _ & _). apply rep_plug in HR as (_ & _ & L & R).
        rewrite (root_size _ l _ L HSl) by reflexivity. cbn [bind n_left n_right]. unfold n_key. cbn [n_inf].
        destruct (ordered_here _ _ _ _ _ HO1) as (k & Ek & O1 & O2 & F1 & F2). apply Forall_app in F1 as [_ F1]. apply Forall_app in F2 as [F2 _].
        cbn [infos nodes] in Ej, Hj. pose proof (infos_len l) as Ll. pose proof (nodes_nonneg l). pose proof (nodes_nonneg r).
        destruct (Z.eqb_spec j (nodes l)) as [->|NE].
        + cbn [wp]. eexists. split; [reflexivity|]. cbn [n_inf]. rewrite <- Ej, nthi_app2 by lia. rewrite Ll, Z.sub_diag. reflexivity.
        + destruct (Z.ltb_spec j (nodes l)) as [LT|GE].
          * destruct l as [|ll li lx lr]; [cbn [nodes] in *; lia|]. cbn [root]. destruct L as (A & _). rewrite (tget_ok _ _ _ A). cbn [bind n_inf].
            assert (exists kl, k_key lx = Some kl /\ kl < k) as (kl & Ekl & Hkl). { cbn [infos] in F1. apply Forall_app in F1 as [_ F1]. inversion F1 as [|? ? Hx _]; subst. unfold kis in Hx. destruct (k_key lx) as [kl|]; [eauto|destruct Hx]. }
            unfold comparator. rewrite HD. rewrite Ek, Ekl. replace (kl <? k) with true by lia. cbn [bind is_none negb andb wp].
            eexists. split; [|exists (CL c q x r), (N ll li lx lr); split; [exact ET|]; cbn [fst snd root]; split; [reflexivity|]; split; [lia|]; split; [|reflexivity]].
            -- cbn [nodes] in *. lia.
            -- rewrite <- Ej. rewrite nthi_app1 by lia. reflexivity.
          * destruct r as [|rl ri rx rr]; [cbn [nodes] in *; lia|]. cbn [root]. destruct R as (A & _). rewrite (tget_ok _ _ _ A). cbn [bind n_inf].
            assert (exists kr, k_key rx = Some kr /\ k < kr) as (kr & Ekr & Hkr). { cbn [infos] in F2. apply Forall_app in F2 as [_ F2]. inversion F2 as [|? ? Hx _]; subst. unfold kis in Hx. destruct (k_key rx) as [kr|]; [eauto|destruct Hx]. }
            unfold comparator. rewrite HD. rewrite Ek, Ekr. replace (kr <? k) with false by lia. cbn [bind is_none negb andb wp].
            replace (match root l with Some _ => Ret (Next (Some ri, j - (nodes l + 1))) | None => Ret (Next (Some ri, j - (nodes l + 1))) end) with (Ret (Next (Some ri, j - (nodes l + 1))) : res (ctl (option Z * Z) (option node))) by (destruct (root l); reflexivity).
            cbn [wp]. eexists. split; [|exists (CR c l q x), (N rl ri rx rr); split; [exact ET|]; cbn [fst snd root]; split; [reflexivity|]; split; [lia|]; split; [|reflexivity]].
            -- cbn [nodes] in *. lia.
            -- rewrite <- Ej. rewrite nthi_app2 by lia. change (x :: infos (N rl ri rx rr)) with ([x] ++ infos (N rl ri rx rr)). rewrite nthi_app2 by (unfold len in *; cbn [length]; lia). f_equal. unfold len in *. cbn [length]. lia.
      - exists Top, T. cbn [fst snd]. destruct HT as (_ & _ & ->). split; [reflexivity|]. split; [reflexivity|]. split; [lia|]. split; reflexivity.
      - apply (fuel_ok _ _ _ HT). }
    apply wp_ex in W as (r & E1 & n & -> & H). eauto.
  Qed.

  (** _simple_path as BinarySearchTree.hpp 396-429: links are compared with None *)
  Definition path_nt (b : bst) (hit : option Z -> bool) (root : option Z) : res (list Z) :=
    let t := b_mem b in
    root <- (match root with Some r => Ret r | None => Raise TypeError end) ;;
    node_idx <- while_loop (fuel t) (fun stack =>
      match stack with
      | [] => Ret (Break (-1))
      | nd :: stack =>
        n <- tget t (Some nd) ;;
        if hit (n_key n) then Ret (Break nd)
        else
          let stack := match n_left n with Some l => l :: stack | None => stack end in
          let stack := match n_right n with Some r => r :: stack | None => stack end in
          Ret (Next stack)
      end) [root] ;;
    if node_idx =? -1 then Ret []
    else
      while_loop (fuel t) (fun '(node_idx, path) =>
        if node_idx =? 0 then Ret (Break (rev (path ++ [0])))
        else
          n <- tget t (Some node_idx) ;;
          match n_parent n with Some p => Ret (Next (p, path ++ [node_idx])) | None => Raise TypeError end) (node_idx, []).
  Fixpoint idxs (Ts : list bt) : list Z := match Ts with [] => [] | N _ i _ _ :: Ts => i :: idxs Ts | E :: Ts => idxs Ts end.
  Lemma idxs_app (a b : list bt) : idxs (a ++ b) = idxs a ++ idxs b.
  Proof. induction a as [|[|l i x r] a IH]; cbn; congruence. Qed.
  Lemma path_nt_ok (b : bst) (T : bt) key : tree_at (b_mem b) (b_root b) T -> b_root b = Some 0 -> forall hit, (forall k, hit k = oeqb k (Some key)) ->
    (exists c l i x r, T = plug c (N l i x r) /\ k_key x = Some key /\ path_nt b hit (b_root b) = Ret (cpath c ++ [i])) \/ (~ has T key /\ path_nt b hit (b_root b) = Ret []).
  Proof.
    intros HT H0 hit HH. assert (HR := proj1 HT). assert (ND := proj1 (proj2 HT)). assert (ER : root T = Some 0) by (rewrite <- H0; symmetry; apply HT). unfold path_nt. rewrite H0. cbn [bind].
    match goal with |- context [bind (while_loop ?f ?bd ?s) _] => assert (W : wp (while_loop f bd s) (fun o => (exists c l i x r, T = plug c (N l i x r) /\ k_key x = Some key /\ o = i) \/ (~ has T key /\ o = (-1)))) end.
    { eapply (wp_while_g (fun n st => exists Ts, st = idxs Ts /\ Forall (fun S => S <> E /\ exists c, T = plug c S) Ts /\ (has T key -> exists S, In S Ts /\ has S key) /\ n = Z.to_nat (total Ts))).
      - intros n st (Ts & -> & F & HK & ->). destruct Ts as [|S Ts]; cbn [idxs].
        + cbn [wp]. right. split; [|reflexivity]. intros X. destruct (HK X) as (S & [] & _).
        + inversion F as [|? ? [SE (c & ET)] FT]; subst. destruct S as [|l i x r]; [congruence|].
          assert (HT1 := HT). assert (HC := sub_cell _ _ _ _ _ _ _ HT1). rewrite (tget_ok _ _ _ HC). cbn [bind n_left n_right]. unfold n_key. cbn [n_inf]. rewrite HH.
          destruct (oeqb_spec (k_key x) (Some key)) as [Ek|Nk]; [cbn [wp]; left; exists c, l, i, x, r; auto|]. cbn [wp].
          pose proof (nodes_nonneg l). pose proof (nodes_nonneg r). pose proof (total_nonneg Ts).
          eexists. split; [|exists (sub r ++ sub l ++ Ts); split; [destruct l, r; reflexivity|]; split; [|split; [|reflexivity]]].
          * cbn [total nodes]. rewrite !total_app, !sub_total. lia.
          * rewrite !Forall_app. split; [|split; [|exact FT]]; [destruct r as [|a1 a2 a3 a4]|destruct l as [|a1 a2 a3 a4]]; cbn [sub]; constructor; try constructor; try discriminate; [exists (CR c l i x)|exists (CL c i x r)]; reflexivity.
          * intros X. destruct (HK X) as (S & [<-|HS] & (y & Hy & Ey)).
            -- cbn [infos] in Hy. apply in_app_or in Hy as [Hy|[<-|Hy]]; [|congruence|].
               ++ exists l. split; [rewrite !in_app_iff; right; left; destruct l; [destruct Hy|left; reflexivity]|exists y; auto].
               ++ exists r. split; [rewrite !in_app_iff; left; destruct r; [destruct Hy|left; reflexivity]|exists y; auto].
            -- exists S. split; [rewrite !in_app_iff; auto|exists y; auto].
      - exists [T]. split; [destruct T as [|? ? ? ?]; [discriminate|]; cbn [root] in ER; injection ER as ->; reflexivity|]. split; [constructor; [split; [destruct T; discriminate|exists Top; reflexivity]|constructor]|]. split; [|reflexivity]. intros X. exists T. split; [left; reflexivity|exact X].
      - cbn [total]. assert (H := fuel_ok _ _ _ HT). lia. }
    apply wp_ex in W as (o & E1 & [(c & l & i & x & r & ET & Ek & ->)|(NH & ->)]); rewrite E1; cbn [bind oeqb].
    2: { right. split; [exact NH|reflexivity]. }
    left. exists c, l, i, x, r. split; [exact ET|]. split; [exact Ek|].
    assert (0 <= i). { assert (HT1 := HT). rewrite ET in HT1. assert (HC := cell_inb _ _ _ (sub_cell _ _ _ _ _ _ _ HT1)). destruct HC. assumption. }
    destruct (Z.eqb_spec i (-1)) as [|_]; [lia|].
    match goal with |- while_loop ?f ?bd ?s = _ => assert (W : wp (while_loop f bd s) (fun p => p = cpath c ++ [i])) end.
    { eapply (wp_while_g (fun n st => exists c' l' i' x' r', T = plug c' (N l' i' x' r') /\ fst st = i' /\ cpath c' ++ i' :: rev (snd st) = cpath c ++ [i] /\ n = clen c')).
      - intros n [nd p] (c' & l' & i' & x' & r' & ET' & En & EP & ->). cbn [fst snd] in *. subst nd. destruct (Z.eqb_spec i' 0) as [->|NZ].
        + cbn [wp]. assert (c' = Top) as ->. { destruct c' as [|c' j z w|c' w j z]; [reflexivity|..]; (exfalso; refine (zero_top T _ _ ET' ER ND _ _); [discriminate|]; cbn [idx]; apply in_or_app; right; left; reflexivity). }
          rewrite rev_app_distr. exact EP.
        + assert (HT1 := HT). rewrite ET' in HT1. rewrite (tget_ok _ _ _ (sub_cell _ _ _ _ _ _ _ HT1)). cbn [bind n_parent wp]. destruct c' as [|c' j z w|c' w j z]; cbn [cpar].
          * exfalso. rewrite ET' in ER. cbn [plug root] in ER. congruence.
          * exists (clen c'). split; [cbn [clen]; lia|]. exists c', (N l' i' x' r'), j, z, w. cbn [fst snd]. split; [exact ET'|]. split; [reflexivity|]. split; [|reflexivity]. rewrite rev_app_distr. cbn [cpath] in EP. rewrite <- app_assoc in EP. exact EP.
          * exists (clen c'). split; [cbn [clen]; lia|]. exists c', w, j, z, (N l' i' x' r'). cbn [fst snd]. split; [exact ET'|]. split; [reflexivity|]. split; [|reflexivity]. rewrite rev_app_distr. cbn [cpath] in EP. rewrite <- app_assoc in EP. exact EP.
      - exists c, l, i, x, r. cbn [fst snd rev]. auto.
      - assert (HT1 := HT). rewrite ET in HT1. pose proof (clen_fuel _ _ _ _ _ _ _ HT1). lia. }
    apply wp_ex in W as (q & E2 & ->). exact E2.
  Qed.
  (** a key object that is never the one in a node *)
  Lemma path_nt_none (b : bst) (T : bt) hit : tree_at (b_mem b) (b_root b) T -> b_root b = Some 0 -> (forall k, hit k = false) -> path_nt b hit (b_root b) = Ret [].
  Proof.
    intros HT H0 HH. assert (ER : root T = Some 0) by (rewrite <- H0; symmetry; apply HT). unfold path_nt. rewrite H0. cbn [bind].
    match goal with |- context [bind (while_loop ?f ?bd ?s) _] => assert (W : wp (while_loop f bd s) (fun o => o = (-1))) end.
    { eapply (wp_while_g (fun n st => exists Ts, st = idxs Ts /\ Forall (fun S => S <> E /\ exists c, T = plug c S) Ts /\ n = Z.to_nat (total Ts))).
      - intros n st (Ts & -> & F & ->). destruct Ts as [|S Ts]; cbn [idxs]; [cbn [wp]; reflexivity|].
        inversion F as [|? ? [SE (c & ET)] FT]; subst. destruct S as [|l i x r]; [congruence|].
        assert (HC := sub_cell _ _ _ _ _ _ _ HT). rewrite (tget_ok _ _ _ HC). cbn [bind n_left n_right]. unfold n_key. cbn [n_inf]. rewrite HH. cbn [wp].
        pose proof (nodes_nonneg l). pose proof (nodes_nonneg r). pose proof (total_nonneg Ts).
        eexists. split; [|exists (sub r ++ sub l ++ Ts); split; [destruct l, r; reflexivity|]; split; [|reflexivity]].
        + cbn [total nodes]. rewrite !total_app, !sub_total. lia.
        + rewrite !Forall_app. split; [|split; [|exact FT]]; [destruct r as [|a1 a2 a3 a4]|destruct l as [|a1 a2 a3 a4]]; cbn [sub]; constructor; try constructor; try discriminate; [exists (CR c l i x)|exists (CL c i x r)]; reflexivity.
      - exists [T]. split; [destruct T as [|? ? ? ?]; [discriminate|]; cbn [root] in ER; injection ER as ->; reflexivity|]. split; [constructor; [split; [destruct T; discriminate|exists Top; reflexivity]|constructor]|]. reflexivity.
      - cbn [total]. assert (H := fuel_ok _ _ _ HT). lia. }
    apply wp_ex in W as (o & E1 & ->). rewrite E1. reflexivity.
  Qed.

  (** _lca_1 as BinarySearchTree.hpp 431-465 *)
  Definition lca_nt (b : bst) (hj hk : option Z -> bool) : res (option Z) :=
    let t := b_mem b in
    path1 <- path_nt b hj (b_root b) ;;
    path2 <- path_nt b hk (b_root b) ;;
    if (len path1 =? 0) || (len path2 =? 0) then Raise ValueError
    else while_loop (S (length path1)) (fun i =>
      if (i <? len path1) && (i <? len path2) then
        x <- aget path1 i ;; y <- aget path2 i ;;
        if negb ((x =? y) && cached x) then p <- aget path1 (i - 1) ;; n <- tget t (Some p) ;; Ret (Break (n_key n))
        else Ret (Next (i + 1))
      else
        p <- aget path2 (len path2 - 1) ;;
        n <- tget t (Some p) ;; Ret (Break (n_key n))) 0.
  Lemma aget_app (a : list Z) x p : aget (a ++ x :: p) (len a) = Ret x.
  Proof. rewrite (aget_ok _ 0); [|unfold len; rewrite app_length; cbn [length]; lia]. f_equal. unfold zn, len. rewrite Nat2Z.id, app_nth2, Nat.sub_diag by lia. reflexivity. Qed.
  Lemma aget_last (a : list Z) x : aget (a ++ [x]) (len (a ++ [x]) - 1) = Ret x.
  Proof. replace (len (a ++ [x]) - 1) with (len a) by (unfold len; rewrite app_length; cbn [length]; lia). apply aget_app. Qed.
  Lemma path_in_idx (T : bt) : forall p y, path_in T p y -> Forall (fun i => In i (idx T)) p.
  Proof. intros p y H. apply Forall_forall. intros i Hi. eapply path_in_sub; eassumption. Qed.
  Lemma path_in_nodup (T : bt) : forall p y, NoDup (idx T) -> path_in T p y -> NoDup p.
  Proof.
    induction T as [|l IHl i x r IHr]; intros p y ND H; [destruct p; destruct H|]. destruct p as [|a p]; [destruct H|]. cbn [path_in] in H. destruct H as [<- H]. cbn [idx] in ND. apply NoDup_remove in ND as [ND NI].
    assert (NL : NoDup (idx l) /\ NoDup (idx r)). { clear - ND. induction (idx l) as [|a q IH]; cbn [app] in ND; [split; [constructor|exact ND]|]. inversion ND; subst. destruct (IH H2). split; [|assumption]. constructor; [|assumption]. intros X. apply H1. apply in_or_app. auto. }
    destruct NL as [NL NR].
    destruct H as [[-> _]|[H|H]]; constructor; try (intros []); try constructor; try (intros X; apply NI; apply in_or_app; first [left; eapply path_in_sub; eassumption|right; eapply path_in_sub; eassumption]); eauto.
  Qed.
  Lemma combine_nodup {A B} : forall (a : list A) (b : list B) i i' k, NoDup b -> In (i, k) (combine a b) -> In (i', k) (combine a b) -> i = i'.
  Proof.
    induction a as [|x a IH]; intros [|y b] i i' k ND; cbn [combine In]; [tauto..|]. inversion ND; subst. intros [H|H] [H'|H'].
    - congruence.
    - injection H as -> ->. apply in_combine_r in H'. contradiction.
    - injection H' as -> ->. apply in_combine_r in H. contradiction.
    - eapply IH; eauto.
  Qed.
  Lemma key_idx (T : bt) i i' j : ordered (infos T) -> (exists c l x r, T = plug c (N l i x r) /\ k_key x = Some j) -> (exists c l x r, T = plug c (N l i' x r) /\ k_key x = Some j) -> i = i'.
  Proof.
    intros HO (c & l & x & r & E1 & E2) (c' & l' & x' & r' & E1' & E2'). apply (combine_nodup (idx T) (map k_key (infos T)) i i' (Some j)).
    - destruct HO as [HF HS]. clear - HF HS. induction HS as [|a q HS IH HR]; cbn [map]; [constructor|]. inversion HF as [|? ? Ha HF']; subst. constructor; [|auto]. rewrite in_map_iff. intros (y & Ey & Hy). rewrite Forall_forall in HR. specialize (HR y Hy). unfold klt in HR. unfold kis in Ha. destruct (k_key a) eqn:E; [|destruct Ha]. rewrite Ey in HR. lia.
    - fold (zk T). rewrite E1, zk_plug, zk_N, E2. rewrite !in_app_iff. right. left. right. left. reflexivity.
    - fold (zk T). rewrite E1', zk_plug, zk_N, E2'. rewrite !in_app_iff. right. left. right. left. reflexivity.
  Qed.
  (** where the lowest common ancestor is j's node and not k's, k is returned *)
  Lemma lca_nt_ok (b : bst) (T : bt) j k hj hk : tree_at (b_mem b) (b_root b) T -> b_root b = Some 0 -> ordered (infos T) -> (forall i, In i (idx T) -> 0 <= i <= 256) ->
    (forall z, hj z = oeqb z (Some j)) -> (forall z, hk z = oeqb z (Some k)) ->
    (has T j -> has T k -> exists z, lca_nt b hj hk = Ret (Some (if z =? j then k else z)) /\ is_lca T j k z) /\ (~ has T j \/ ~ has T k -> lca_nt b hj hk = Raise ValueError).
  Proof.
    intros HT H0 HO HB Hj Hk. unfold lca_nt. destruct (path_nt_ok b T j HT H0 hj Hj) as [(c1 & l1 & i1 & x1 & r1 & ET1 & Ek1 & E1)|(N1 & E1)]; rewrite E1; cbn [bind].
    2: { destruct (path_nt_ok b T k HT H0 hk Hk) as [(c2 & l2 & i2 & x2 & r2 & ET2 & Ek2 & E2)|(N2 & E2)]; rewrite E2; cbn [bind]; (split; [intros X; contradiction|]; intros _; reflexivity). }
    destruct (path_nt_ok b T k HT H0 hk Hk) as [(c2 & l2 & i2 & x2 & r2 & ET2 & Ek2 & E2)|(N2 & E2)]; rewrite E2; cbn [bind].
    2: { split; [intros _ X; contradiction|]. intros _. rewrite orb_true_r. reflexivity. }
    assert (HX : forall c l i x (r : bt) key, T = plug c (N l i x r) -> k_key x = Some key -> has T key).
    { intros c l i x r key ET Ek. exists x. split; [|exact Ek]. rewrite ET, infos_plug. cbn [infos]. rewrite !in_app_iff. right. left. right. left. reflexivity. }
    assert (HJ := HX _ _ _ _ _ _ ET1 Ek1). assert (HK := HX _ _ _ _ _ _ ET2 Ek2). split; [|intros [X|X]; contradiction]. intros _ _.
    assert (P1 : path_in T (cpath c1 ++ [i1]) x1) by (rewrite ET1; apply path_last). assert (P2 : path_in T (cpath c2 ++ [i2]) x2) by (rewrite ET2; apply path_last).
    assert (Q2 : exists a, cpath c2 ++ [i2] = a ++ [i2]) by eauto. assert (Q1 : exists a, cpath c1 ++ [i1] = a ++ [i1]) by eauto.
    assert (CELL : forall c l i x (r : bt) key, T = plug c (N l i x r) -> k_key x = Some key -> exists n, tget (b_mem b) (Some i) = Ret n /\ n_key n = Some key).
    { intros c l i x r key ET Ek. assert (HT1 := HT). rewrite ET in HT1. rewrite (tget_ok _ _ _ (sub_cell _ _ _ _ _ _ _ HT1)). eexists. split; [reflexivity|exact Ek]. }
    assert (CC : forall q, In q (cpath c1 ++ [i1]) -> cached q = true).
    { intros q Hq. assert (I1 := path_in_idx T _ _ P1). rewrite Forall_forall in I1. specialize (I1 q Hq). specialize (HB q I1). unfold cached. lia. }
    assert (C1 := CELL _ _ _ _ _ _ ET1 Ek1). assert (C2 := CELL _ _ _ _ _ _ ET2 Ek2).
    set (p1 := cpath c1 ++ [i1]) in *. set (p2 := cpath c2 ++ [i2]) in *. destruct Q1 as (a1 & Q1). destruct Q2 as (a2 & Q2).
    assert (L1 : len p1 <> 0) by (rewrite Q1; unfold len; rewrite app_length; cbn [length]; lia). assert (L2 : len p2 <> 0) by (rewrite Q2; unfold len; rewrite app_length; cbn [length]; lia).
    apply Z.eqb_neq in L1, L2. rewrite L1, L2. cbn [orb].
    destruct (cpre_lca T j k HO (proj1 (proj2 HT)) p1 p2 x1 x2 P1 P2 Ek1 Ek2) as (l & i & x & r & z & HS & Ez & A1 & A2 & A3 & A4 & EL & NN).
    destruct (subtree_plug _ _ HS) as (c & ET). assert (HCi := CELL _ _ _ _ _ _ ET Ez). destruct HCi as (ni & Eni & Eki).
    match goal with |- context [while_loop ?f ?bd ?s] => assert (W : wp (while_loop f bd s) (fun o => o = Some (if z =? j then k else z))) end.
    { eapply (wp_while_g (fun n st => exists a q1 q2, p1 = a ++ q1 /\ p2 = a ++ q2 /\ st = len a /\ n = length q1)).
      - intros n st (a & q1 & q2 & F1 & F2 & -> & ->). assert (EL0 := EL). assert (NN0 := NN). rewrite F1, F2, cpre_app in EL, NN.
        assert (K1 : len p1 = len a + len q1) by (rewrite F1; unfold len; rewrite app_length; lia). assert (K2 : len p2 = len a + len q2) by (rewrite F2; unfold len; rewrite app_length; lia). rewrite K1.
        assert (END : aget p2 (len p2 - 1) = Ret i2) by (rewrite Q2; apply aget_last).
        destruct C1 as (n1 & C1a & C1b). destruct C2 as (n2 & C2a & C2b).
        destruct q1 as [|y1 q1].
        + (* p1 is a prefix of p2: z is j *) change (len (@nil Z)) with 0. rewrite Z.add_0_r, Z.ltb_irrefl. cbn [andb]. cbn [cpre] in EL, NN. rewrite app_nil_r in EL, NN, F1. rewrite <- F1, Q1, last_snoc in EL. subst i1.
          rewrite C1a in Eni. injection Eni as <-. assert (z = j) as -> by congruence. rewrite Z.eqb_refl. rewrite END. cbn [bind]. rewrite C2a. cbn [bind wp]. exact C2b.
        + destruct q2 as [|y2 q2].
          * (* p2 is a prefix of p1: z is k *) change (len (@nil Z)) with 0 in K2. rewrite Z.add_0_r in K2. rewrite END, K2, Z.ltb_irrefl, andb_false_r. cbn [cpre] in EL, NN. rewrite app_nil_r in EL, NN, F2. rewrite <- F2, Q2, last_snoc in EL. subst i2.
            cbn [bind]. rewrite C2a. rewrite C2a in Eni. injection Eni as <-. assert (z = k) as -> by congruence. cbn [bind wp]. rewrite C2b. destruct (k =? j); reflexivity.
          * rewrite K2. replace (len a <? len a + len (y1 :: q1)) with true by (symmetry; apply Z.ltb_lt; unfold len; cbn [length]; lia). replace (len a <? len a + len (y2 :: q2)) with true by (symmetry; apply Z.ltb_lt; unfold len; cbn [length]; lia). cbn [andb].
            assert (CY : cached y1 = true) by (apply CC; rewrite F1; apply in_or_app; right; left; reflexivity).
            rewrite F1, F2, !aget_app. cbn [bind]. cbn [cpre] in EL, NN. destruct (Z.eqb_spec y1 y2) as [<-|NE]; rewrite ?CY; cbn [andb negb].
            -- cbn [wp]. exists (length q1). split; [cbn [length]; lia|]. exists (a ++ [y1]), q1, q2. rewrite <- !app_assoc. split; [reflexivity|]. split; [reflexivity|]. split; [unfold len; rewrite app_length; cbn [length]; lia|reflexivity].
            -- rewrite app_nil_r in EL, NN. destruct (list_end a) as [->|(a0 & y & ->)]; [congruence|]. rewrite last_snoc in EL. subst y.
               replace (len (a0 ++ [i]) - 1) with (len a0) by (unfold len; rewrite app_length; cbn [length]; lia). rewrite <- app_assoc. cbn [app]. rewrite aget_app. cbn [bind]. rewrite Eni. cbn [bind wp]. rewrite Eki.
               destruct (Z.eqb_spec z j) as [->|]; [|reflexivity]. exfalso.
               (* j's node is not the last of the common part *)
               assert (ND := proj1 (proj2 HT)). assert (PA := path_last c l i x r). rewrite <- ET in PA.
               assert (i1 = i) as ->. { eapply (key_idx T); [exact HO| | ]; [exists c1, l1, x1, r1; split; [exact ET1|exact Ek1]|exists c, l, x, r; split; [exact ET|exact Ez]]. }
               rewrite <- app_assoc in F1. cbn [app] in F1. assert (NDp : NoDup p1) by (eapply path_in_nodup; [exact ND|exact P1]). rewrite F1 in NDp. destruct (list_end (y1 :: q1)) as [|(q0 & y & Eq)]; [discriminate|]. rewrite Eq in *.
               assert (y = i). { rewrite Q1 in F1. change (a0 ++ i :: q0 ++ [y]) with (a0 ++ (i :: q0) ++ [y]) in F1. rewrite app_assoc in F1. apply app_inj_tail in F1 as [_ ->]. reflexivity. }
               subst y. apply NoDup_remove_2 in NDp. apply NDp. rewrite !in_app_iff. right. right. left. reflexivity.
      - exists [], p1, p2. auto.
      - lia. }
    apply wp_ex in W as (o & E3 & ->). exists z. split; [exact E3|]. exists l, i, x, r. auto 10.
  Qed.
End Variants.
