(** Proofs: lowest common ancestors of a BinarySearchTree. *)
From Coq Require Import Sorted.
From Verif Require Import Base TreeModel TreeProofs TreeRotate TreeBst TreeTrav TreeQuery.

(** Specification. *)
Section LcaSpec.
  Context {D : Type}.
  Notation info := (info D). Notation bt := (bt D).
  Definition has (T : bt) (key : Z) : Prop := exists x, In x (infos T) /\ k_key x = Some key.
  Inductive subtree (S : bt) : bt -> Prop :=
    | Sub_here : subtree S S
    | Sub_left l i x r : subtree S l -> subtree S (N l i x r)
    | Sub_right l i x r : subtree S r -> subtree S (N l i x r).
  (** the node with key [z] has both [j] and [k] in its subtree and no child of it does *)
  Definition is_lca (T : bt) (j k z : Z) : Prop :=
    exists l i x r, subtree (N l i x r) T /\ k_key x = Some z /\ has (N l i x r) j /\ has (N l i x r) k /\ ~ (has l j /\ has l k) /\ ~ (has r j /\ has r k).
End LcaSpec.

Section Lca.
  Context {D : Type}.
  Notation info := (info D). Notation node := (node D). Notation mem := (mem D). Notation bst := (bst D). Notation bt := (bt D). Notation ctx := (ctx D).

  Fixpoint path_in (T : bt) (p : list Z) (y : info) : Prop :=
    match T, p with
    | N l i x r, j :: q => i = j /\ ((q = [] /\ y = x) \/ path_in l q y \/ path_in r q y)
    | _, _ => False
    end.
  Lemma path_in_info T : forall p y, path_in T p y -> In y (infos T).
  Proof.
    induction T as [|l IHl i x r IHr]; intros [|j q] y; cbn [path_in]; try tauto. intros (_ & [(_ & ->)|[H|H]]); cbn [infos]; rewrite in_app_iff; cbn [In]; eauto.
  Qed.
  Lemma path_in_head T p y : path_in T p y -> exists i q, p = i :: q /\ root T = Some i.
  Proof. destruct T, p; cbn [path_in]; try tauto. intros (-> & _). eauto. Qed.
  Lemma path_in_sub T p y : path_in T p y -> forall i, In i p -> In i (idx T).
  Proof.
    revert p. induction T as [|l IHl i x r IHr]; intros [|j q]; cbn [path_in]; try tauto. intros (-> & H) k [<-|Hk]; cbn [idx]; rewrite in_app_iff; cbn [In]; [auto|]. destruct H as [(-> & _)|[H|H]]; [destruct Hk|..]; eauto.
  Qed.
  (** a node of the tree at index i on the path p *)
  Fixpoint cpre (p q : list Z) : list Z := match p, q with x :: p', y :: q' => if x =? y then x :: cpre p' q' else [] | _, _ => [] end.
  Lemma cpre_lca (T : bt) j k : ordered (infos T) -> NoDup (idx T) -> forall p1 p2 y1 y2, path_in T p1 y1 -> path_in T p2 y2 -> k_key y1 = Some j -> k_key y2 = Some k ->
    exists l i x r z, subtree (N l i x r) T /\ k_key x = Some z /\ has (N l i x r) j /\ has (N l i x r) k /\ ~ (has l j /\ has l k) /\ ~ (has r j /\ has r k) /\ last (cpre p1 p2) 0 = i /\ cpre p1 p2 <> [].
  Proof.
    intros HO ND. induction T as [|l IHl i x r IHr]; intros p1 p2 y1 y2 H1 H2 E1 E2; [destruct H1|].
    assert (I1 := path_in_info _ _ _ H1). assert (I2 := path_in_info _ _ _ H2).
    destruct p1 as [|a1 q1]; [destruct H1|]. destruct p2 as [|a2 q2]; [destruct H2|]. cbn [path_in] in H1, H2. destruct H1 as [<- H1], H2 as [<- H2]. cbn [cpre]. rewrite Z.eqb_refl.
    destruct (ordered_here Top _ _ _ _ HO) as (kx & Ek & O1 & O2 & F1 & F2). cbn [cl cr app] in O1, F1. cbn [cr] in O2, F2. rewrite app_nil_r in O2, F2. rewrite Forall_forall in F1, F2.
    assert (ND' := ND). rewrite nodup_cnt in ND'. destruct (nodup_N _ _ _ _ ND) as [NDl NDr].
    assert (NL : forall y, has l y -> y < kx). { intros y (u & Hu & Eu). specialize (F1 u Hu). unfold kis in F1. rewrite Eu in F1. exact F1. }
    assert (NR : forall y, has r y -> kx < y). { intros y (u & Hu & Eu). specialize (F2 u Hu). unfold kis in F2. rewrite Eu in F2. exact F2. }
    assert (HERE : (q1 = [] /\ j = kx \/ path_in l q1 y1 \/ path_in r q1 y1) -> (q2 = [] /\ k = kx \/ path_in l q2 y2 \/ path_in r q2 y2) -> ~ (path_in l q1 y1 /\ path_in l q2 y2) -> ~ (path_in r q1 y1 /\ path_in r q2 y2) ->
      exists l' i' x' r' z, subtree (N l' i' x' r') (N l i x r) /\ k_key x' = Some z /\ has (N l' i' x' r') j /\ has (N l' i' x' r') k /\ ~ (has l' j /\ has l' k) /\ ~ (has r' j /\ has r' k) /\ last (i :: cpre q1 q2) 0 = i' /\ i :: cpre q1 q2 <> []).
    { intros A1 A2 B1 B2. exists l, i, x, r, kx. split; [constructor|]. split; [exact Ek|]. split; [exists y1; auto|]. split; [exists y2; auto|].
      assert (J1 : path_in l q1 y1 -> has l j) by (intros Q; exists y1; split; [apply (path_in_info _ _ _ Q)|exact E1]). assert (J2 : path_in r q1 y1 -> has r j) by (intros Q; exists y1; split; [apply (path_in_info _ _ _ Q)|exact E1]).
      assert (K1 : path_in l q2 y2 -> has l k) by (intros Q; exists y2; split; [apply (path_in_info _ _ _ Q)|exact E2]). assert (K2 : path_in r q2 y2 -> has r k) by (intros Q; exists y2; split; [apply (path_in_info _ _ _ Q)|exact E2]).
      split; [|split; [|split; [|discriminate]]].
      - intros [X Y]. apply NL in X, Y. destruct A1 as [[_ A1]|[A1|A1]]; [lia| |apply J2, NR in A1; lia]. destruct A2 as [[_ A2]|[A2|A2]]; [lia|tauto|apply K2, NR in A2; lia].
      - intros [X Y]. apply NR in X, Y. destruct A1 as [[_ A1]|[A1|A1]]; [lia|apply J1, NL in A1; lia|]. destruct A2 as [[_ A2]|[A2|A2]]; [lia|apply K1, NL in A2; lia|tauto].
      - assert (cpre q1 q2 = []) as ->; [|reflexivity]. destruct q1 as [|a q1]; [reflexivity|]. destruct q2 as [|b q2]; [reflexivity|]. cbn [cpre]. destruct (Z.eqb_spec a b) as [<-|]; [|reflexivity]. exfalso.
        assert (SL : forall S p y, path_in S (a :: p) y -> In a (idx S)) by (intros S p y Q; apply (path_in_sub _ _ _ Q); left; reflexivity).
        destruct A1 as [[A1 _]|[A1|A1]]; [discriminate| |]; (destruct A2 as [[A2 _]|[A2|A2]]; [discriminate|tauto|]) || (destruct A2 as [[A2 _]|[A2|A2]]; [discriminate| |tauto]); apply SL in A1; apply SL in A2; dj ND'. }
    assert (XE : forall S y, path_in S [] y -> False) by (intros [|]; cbn [path_in]; auto).
    assert (XLR : forall q y y', path_in l q y -> path_in r q y' -> False).
    { intros q y y' A B. destruct (path_in_head _ _ _ A) as (a & q' & -> & _). apply path_in_sub with (i := a) in A; [|left; reflexivity]. apply path_in_sub with (i := a) in B; [|left; reflexivity]. dj ND'. }
    assert (KX : forall u v, k_key x = Some u -> v = kx -> u = v) by congruence.
    destruct H1 as [[Q1 ->]|[H1|H1]], H2 as [[Q2 ->]|[H2|H2]];
    try (apply HERE; [first [left; split; [assumption|congruence]|auto]|first [left; split; [assumption|congruence]|auto]|intros [X Y]; subst; solve [eapply XE; eassumption|eauto 4]|intros [X Y]; subst; solve [eapply XE; eassumption|eauto 4]]).
    - destruct (IHl O1 NDl q1 q2 y1 y2 H1 H2 E1 E2) as (l' & i' & x' & r' & z & A & B & C & D1 & D2 & D3 & D4 & D5). exists l', i', x', r', z. split; [constructor; exact A|]. repeat (split; [assumption|]). split; [|discriminate]. destruct (cpre q1 q2); [congruence|exact D4].
    - destruct (IHr O2 NDr q1 q2 y1 y2 H1 H2 E1 E2) as (l' & i' & x' & r' & z & A & B & C & D1 & D2 & D3 & D4 & D5). exists l', i', x', r', z. split; [apply Sub_right; exact A|]. repeat (split; [assumption|]). split; [|discriminate]. destruct (cpre q1 q2); [congruence|exact D4].
  Qed.

  (** ** contexts and paths *)
  Fixpoint cpath (c : ctx) : list Z := match c with Top => [] | CL c i _ _ | CR c _ i _ => cpath c ++ [i] end.
  Lemma path_plug c : forall (S : bt) p y, path_in S p y -> path_in (plug c S) (cpath c ++ p) y.
  Proof.
    induction c as [|c IH i x r|c IH l i x]; intros S p y H; cbn [plug cpath]; [exact H|..]; rewrite <- app_assoc; apply IH; cbn [app path_in]; auto.
  Qed.
  Lemma cpath_len c : length (cpath c) = clen c.
  Proof. induction c as [|c IH i x r|c IH l i x]; cbn [cpath clen]; rewrite ?app_length; cbn [length]; lia. Qed.
  Lemma root_cidx (c : ctx) : c <> Top -> forall S : bt, exists i, root (plug c S) = Some i /\ In i (cidx c).
  Proof.
    induction c as [|c IH i x r|c IH l i x]; intros HC S; [congruence|..]; cbn [plug cidx].
    - destruct c as [|c' i' x' r'|c' l' i' x']; [exists i; split; [reflexivity|left; reflexivity]|..];
        (destruct (IH ltac:(discriminate) (N S i x r)) as (k & E1 & H); exists k; split; [exact E1|]; right; apply in_or_app; right; exact H).
    - destruct c as [|c' i' x' r'|c' l' i' x']; [exists i; split; [reflexivity|apply in_or_app; right; left; reflexivity]|..];
        (destruct (IH ltac:(discriminate) (N l i x S)) as (k & E1 & H); exists k; split; [exact E1|]; apply in_or_app; right; right; exact H).
  Qed.
  (** only the root of the whole tree has index 0 *)
  Lemma zero_top (T : bt) c S : T = plug c S -> root T = Some 0 -> NoDup (idx T) -> c <> Top -> ~ In 0 (idx S).
  Proof.
    intros -> HR ND HC H. destruct (root_cidx c HC S) as (i & E1 & HI). rewrite E1 in HR. injection HR as ->. rewrite nodup_cnt in ND. specialize (ND 0). rewrite cnt_plug in ND. rewrite cnt_In in H, HI. lia.
  Qed.
  Lemma truthy_root (T : bt) c S : T = plug c S -> root T = Some 0 -> NoDup (idx T) -> c <> Top -> truthy (root S) = negb (is_none (root S)).
  Proof.
    intros ET HR ND HC. destruct S as [|l i x r]; [reflexivity|]. cbn [root truthy is_none negb]. assert (H := zero_top T c _ ET HR ND HC). destruct (Z.eqb_spec i 0) as [->|]; [|reflexivity]. exfalso. apply H. cbn [idx]. apply in_or_app. right. left. reflexivity.
  Qed.
  Lemma sub_truthy (T : bt) c S (st : list (option Z)) : T = plug c S -> root T = Some 0 -> NoDup (idx T) -> c <> Top -> (if truthy (root S) then root S :: st else st) = map root (sub S) ++ st.
  Proof. intros ET HR ND HC. rewrite (truthy_root T c S ET HR ND HC). destruct S; reflexivity. Qed.

  Lemma simple_path_ok (b : bst) (T : bt) key : tree_at (b_mem b) (b_root b) T -> b_root b = Some 0 ->
    (exists c l i x r, T = plug c (N l i x r) /\ k_key x = Some key /\ simple_path b key (b_root b) = Ret (cpath c ++ [i])) \/ (~ has T key /\ simple_path b key (b_root b) = Ret []).
  Proof.
    intros HT H0. assert (HR := proj1 HT). assert (ND := proj1 (proj2 HT)). assert (ER : root T = Some 0) by (rewrite <- H0; symmetry; apply HT). unfold simple_path.
    match goal with |- context [bind (while_loop ?f ?bd ?s) _] => assert (W : wp (while_loop f bd s) (fun o => (exists c l i x r, T = plug c (N l i x r) /\ k_key x = Some key /\ o = Some i) \/ (~ has T key /\ o = Some (-1)))) end.
    { eapply (wp_while_g (fun n st => exists Ts, st = map root Ts /\ Forall (fun S => S <> E /\ exists c, T = plug c S) Ts /\ (has T key -> exists S, In S Ts /\ has S key) /\ n = Z.to_nat (total Ts))).
      - intros n st (Ts & -> & F & HK & ->). destruct Ts as [|S Ts]; cbn [map].
        + cbn [wp]. right. split; [|reflexivity]. intros X. destruct (HK X) as (S & [] & _).
        + inversion F as [|? ? [SE (c & ET)] FT]; subst. destruct S as [|l i x r]; [congruence|]. cbn [root].
          assert (HT1 := HT). assert (HC := sub_cell _ _ _ _ _ _ _ HT1). rewrite (tget_ok _ _ _ HC). cbn [bind n_left n_right]. unfold n_key. cbn [n_inf].
          destruct (oeqb_spec (k_key x) (Some key)) as [Ek|Nk]; [cbn [wp]; left; exists c, l, i, x, r; auto|]. cbn [wp].
          pose proof (nodes_nonneg l). pose proof (nodes_nonneg r). pose proof (total_nonneg Ts).
          rewrite (sub_truthy _ (CL c i x r) l) by (reflexivity || assumption || discriminate). rewrite (sub_truthy _ (CR c l i x) r) by (reflexivity || assumption || discriminate).
          eexists. split; [|exists (sub r ++ sub l ++ Ts); split; [rewrite !map_app; reflexivity|]; split; [|split; [|reflexivity]]].
          * cbn [total nodes]. rewrite !total_app, !sub_total. lia.
          * rewrite !Forall_app. split; [|split; [|exact FT]]; [destruct r as [|a1 a2 a3 a4]|destruct l as [|a1 a2 a3 a4]]; cbn [sub]; constructor; try constructor; try discriminate; [exists (CR c l i x)|exists (CL c i x r)]; reflexivity.
          * intros X. destruct (HK X) as (S & [<-|HS] & (y & Hy & Ey)).
            -- cbn [infos] in Hy. apply in_app_or in Hy as [Hy|[<-|Hy]]; [|congruence|].
               ++ exists l. split; [rewrite !in_app_iff; right; left; destruct l; [destruct Hy|left; reflexivity]|exists y; auto].
               ++ exists r. split; [rewrite !in_app_iff; left; destruct r; [destruct Hy|left; reflexivity]|exists y; auto].
            -- exists S. split; [rewrite !in_app_iff; auto|exists y; auto].
      - exists [T]. rewrite H0, <- ER. split; [reflexivity|]. split; [constructor; [split; [destruct T; discriminate|exists Top; reflexivity]|constructor]|]. split; [|reflexivity]. intros X. exists T. split; [left; reflexivity|exact X].
      - cbn [total]. assert (H := fuel_ok _ _ _ HT). lia. }
    apply wp_ex in W as (o & E1 & [(c & l & i & x & r & ET & Ek & ->)|(NH & ->)]); rewrite E1; cbn [bind oeqb].
    2: { right. split; [exact NH|reflexivity]. }
    left. exists c, l, i, x, r. split; [exact ET|]. split; [exact Ek|].
    assert (0 <= i). { assert (HT1 := HT). rewrite ET in HT1. assert (HC := cell_inb _ _ _ (sub_cell _ _ _ _ _ _ _ HT1)). destruct HC. assumption. }
    destruct (Z.eqb_spec i (-1)) as [|_]; [lia|].
    match goal with |- while_loop ?f ?bd ?s = _ => assert (W : wp (while_loop f bd s) (fun p => p = cpath c ++ [i])) end.
    { eapply (wp_while_g (fun n st => exists c' l' i' x' r', T = plug c' (N l' i' x' r') /\ fst st = Some i' /\ cpath c' ++ i' :: rev (snd st) = cpath c ++ [i] /\ n = clen c')).
      - intros n [nd p] (c' & l' & i' & x' & r' & ET' & En & EP & ->). cbn [fst snd] in *. subst nd. cbn [oeqb]. destruct (Z.eqb_spec i' 0) as [->|NZ].
        + cbn [wp]. assert (c' = Top) as ->. { destruct c' as [|c' j z w|c' w j z]; [reflexivity|..]; (exfalso; refine (zero_top T _ _ ET' ER ND _ _); [discriminate|]; cbn [idx]; apply in_or_app; right; left; reflexivity). }
          rewrite rev_app_distr. exact EP.
        + assert (HT1 := HT). rewrite ET' in HT1. rewrite (tget_ok _ _ _ (sub_cell _ _ _ _ _ _ _ HT1)). cbn [bind n_parent wp]. destruct c' as [|c' j z w|c' w j z]; cbn [cpar].
          * exfalso. rewrite ET' in ER. cbn [plug root] in ER. congruence.
          * exists (clen c'). split; [cbn [clen]; lia|]. exists c', (N l' i' x' r'), j, z, w. cbn [fst snd]. split; [exact ET'|]. split; [reflexivity|]. split; [|reflexivity]. rewrite rev_app_distr. cbn [cpath] in EP. rewrite <- app_assoc in EP. exact EP.
          * exists (clen c'). split; [cbn [clen]; lia|]. exists c', w, j, z, (N l' i' x' r'). cbn [fst snd]. split; [exact ET'|]. split; [reflexivity|]. split; [|reflexivity]. rewrite rev_app_distr. cbn [cpath] in EP. rewrite <- app_assoc in EP. exact EP.
      - exists c, l, i, x, r. cbn [fst snd rev]. auto.
      - assert (HT1 := HT). rewrite ET in HT1. pose proof (clen_fuel _ _ _ _ _ _ _ HT1). lia. }
    apply wp_ex in W as (q & E2 & ->). exact E2.
  Qed.
  Lemma path_last c l i x (r : bt) : path_in (plug c (N l i x r)) (cpath c ++ [i]) x.
  Proof. apply path_plug. cbn [path_in]. auto. Qed.

  (** the loop of _lca_1 finds the end of the common prefix *)
  Lemma cpre_app : forall (a p q : list Z), cpre (a ++ p) (a ++ q) = a ++ cpre p q.
  Proof. induction a as [|x a IH]; intros p q; cbn [app cpre]; [reflexivity|]. rewrite Z.eqb_refl, IH. reflexivity. Qed.
  Lemma list_lt_app : forall a p q, list_lt (a ++ p) (a ++ q) = list_lt p q.
  Proof. induction a as [|x a IH]; intros p q; cbn [app list_lt]; [destruct p, q; reflexivity|]. rewrite Z.eqb_refl, IH. reflexivity. Qed.
  Lemma lget_app (a : list Z) x p : lget (a ++ x :: p) (len a) = Ret x.
  Proof. rewrite (lget_ok _ 0); [|unfold len; rewrite app_length; cbn [length]; lia]. f_equal. unfold zn, len. rewrite Nat2Z.id, app_nth2, Nat.sub_diag by lia. reflexivity. Qed.
  Lemma lget_last (a : list Z) x : lget (a ++ [x]) (-1) = Ret x.
  Proof. unfold lget. change (-1 <? 0) with true. cbv iota. assert (L : len (a ++ [x]) = len a + 1) by (unfold len; rewrite app_length; cbn [length]; lia). rewrite L. pose proof (len_nonneg _ a). replace (-1 + (len a + 1)) with (len a) by lia. rewrite (aget_ok _ 0) by (rewrite L; lia). f_equal. unfold zn, len. rewrite Nat2Z.id, app_nth2, Nat.sub_diag by lia. reflexivity. Qed.
  Lemma list_end (a : list Z) : a = [] \/ exists b x, a = b ++ [x].
  Proof. destruct a as [|y a]; [left; reflexivity|]. right. exists (removelast (y :: a)), (last (y :: a) 0). apply app_removelast_last. discriminate. Qed.
  Lemma last_snoc (a : list Z) x : last (a ++ [x]) 0 = x.
  Proof. apply last_last. Qed.
  Lemma subtree_plug (S T : bt) : subtree S T -> exists c, T = plug c S.
  Proof.
    intros H. induction H as [|l' i' x' r' _ (c & ->)|l' i' x' r' _ (c & ->)]; [exists Top; reflexivity|..].
    - revert S. induction c as [|c IH i x r|c IH l i x]; intros S; cbn [plug]; [exists (CL Top i' x' r'); reflexivity|destruct (IH (N S i x r)) as (c0 & E0); exists (CL c0 i x r); exact E0|destruct (IH (N l i x S)) as (c0 & E0); exists (CR c0 l i x); exact E0].
    - revert S. induction c as [|c IH i x r|c IH l i x]; intros S; cbn [plug]; [exists (CR Top l' i' x'); reflexivity|destruct (IH (N S i x r)) as (c0 & E0); exists (CL c0 i x r); exact E0|destruct (IH (N l i x S)) as (c0 & E0); exists (CR c0 l i x); exact E0].
  Qed.
  Lemma lca_1_ok (b : bst) (T : bt) j k : tree_at (b_mem b) (b_root b) T -> b_root b = Some 0 -> ordered (infos T) ->
    (has T j -> has T k -> exists z, lca_1 b j k = Ret (Some z) /\ is_lca T j k z) /\ (~ has T j \/ ~ has T k -> lca_1 b j k = Raise ValueError).
  Proof.
    intros HT H0 HO. unfold lca_1. destruct (simple_path_ok b T j HT H0) as [(c1 & l1 & i1 & x1 & r1 & ET1 & Ek1 & E1)|(N1 & E1)]; rewrite E1; cbn [bind].
    2: { destruct (simple_path_ok b T k HT H0) as [(c2 & l2 & i2 & x2 & r2 & ET2 & Ek2 & E2)|(N2 & E2)]; rewrite E2; cbn [bind]; (split; [intros X; contradiction|]; intros _; reflexivity). }
    destruct (simple_path_ok b T k HT H0) as [(c2 & l2 & i2 & x2 & r2 & ET2 & Ek2 & E2)|(N2 & E2)]; rewrite E2; cbn [bind].
    2: { split; [intros _ X; contradiction|]. intros _. rewrite orb_true_r. reflexivity. }
    assert (HX : forall c l i x (r : bt) key, T = plug c (N l i x r) -> k_key x = Some key -> has T key).
    { intros c l i x r key ET Ek. exists x. split; [|exact Ek]. rewrite ET, infos_plug. cbn [infos]. rewrite !in_app_iff. right. left. right. left. reflexivity. }
    assert (HJ := HX _ _ _ _ _ _ ET1 Ek1). assert (HK := HX _ _ _ _ _ _ ET2 Ek2). split; [|intros [X|X]; contradiction]. intros _ _.
    assert (P1 : path_in T (cpath c1 ++ [i1]) x1) by (rewrite ET1; apply path_last). assert (P2 : path_in T (cpath c2 ++ [i2]) x2) by (rewrite ET2; apply path_last).
    set (p1 := cpath c1 ++ [i1]) in *. set (p2 := cpath c2 ++ [i2]) in *.
    assert (L1 : len p1 <> 0) by (unfold p1, len; rewrite app_length; cbn [length]; lia). assert (L2 : len p2 <> 0) by (unfold p2, len; rewrite app_length; cbn [length]; lia).
    apply Z.eqb_neq in L1, L2. rewrite L1, L2. cbn [orb].
    destruct (cpre_lca T j k HO (proj1 (proj2 HT)) p1 p2 x1 x2 P1 P2 Ek1 Ek2) as (l & i & x & r & z & HS & Ez & A1 & A2 & A3 & A4 & EL & NN).
    assert (HCi : exists n, tget (b_mem b) (Some i) = Ret n /\ n_key n = Some z).
    { destruct (subtree_plug _ _ HS) as (c & ET).
      assert (HT1 := HT). rewrite ET in HT1. rewrite (tget_ok _ _ _ (sub_cell _ _ _ _ _ _ _ HT1)). eexists. split; [reflexivity|exact Ez]. }
    destruct HCi as (ni & Eni & Eki).
    match goal with |- context [while_loop ?f ?bd ?s] => assert (W : wp (while_loop f bd s) (fun o => o = Some z)) end.
    { eapply (wp_while_g (fun n st => exists a q1 q2, p1 = a ++ q1 /\ p2 = a ++ q2 /\ st = len a /\ n = length q1)).
      - intros n st (a & q1 & q2 & F1 & F2 & -> & ->). rewrite F1, F2, cpre_app in EL, NN.
        assert (K1 : len p1 = len a + len q1) by (rewrite F1; unfold len; rewrite app_length; lia). assert (K2 : len p2 = len a + len q2) by (rewrite F2; unfold len; rewrite app_length; lia). rewrite K1, K2.
        destruct q1 as [|y1 q1].
        + (* p1 is a prefix of p2 *) change (len (@nil Z)) with 0. rewrite Z.add_0_r, Z.ltb_irrefl. cbn [andb]. cbn [cpre] in EL, NN. rewrite app_nil_r in EL, NN. destruct (list_end a) as [->|(a0 & y & ->)]; [congruence|]. rewrite last_snoc in EL. subst y.
          rewrite F1, F2, list_lt_app. destruct q2 as [|y2 q2]; cbn [list_lt]; rewrite ?app_nil_r; rewrite lget_last; cbn [bind]; rewrite Eni; cbn [bind wp]; exact Eki.
        + destruct q2 as [|y2 q2].
          * change (len (@nil Z)) with 0. rewrite Z.add_0_r, Z.ltb_irrefl, andb_false_r. cbn [cpre] in EL, NN. rewrite app_nil_r in EL, NN. destruct (list_end a) as [->|(a0 & y & ->)]; [congruence|]. rewrite last_snoc in EL. subst y.
            rewrite F1, F2, list_lt_app. cbn [list_lt]. rewrite ?app_nil_r. rewrite lget_last; cbn [bind]; rewrite Eni; cbn [bind wp]; exact Eki.
          * replace (len a <? len a + len (y1 :: q1)) with true by (symmetry; apply Z.ltb_lt; unfold len; cbn [length]; lia). replace (len a <? len a + len (y2 :: q2)) with true by (symmetry; apply Z.ltb_lt; unfold len; cbn [length]; lia). cbn [andb].
            rewrite F1, F2, !lget_app. cbn [bind]. cbn [cpre] in EL, NN. destruct (Z.eqb_spec y1 y2) as [<-|NE]; cbn [negb].
            -- cbn [wp]. exists (length q1). split; [cbn [length]; lia|]. exists (a ++ [y1]), q1, q2. rewrite <- !app_assoc. split; [reflexivity|]. split; [reflexivity|]. split; [unfold len; rewrite app_length; cbn [length]; lia|reflexivity].
            -- rewrite app_nil_r in EL, NN. destruct (list_end a) as [->|(a0 & y & ->)]; [congruence|]. rewrite last_snoc in EL. subst y.
               replace (len (a0 ++ [i]) - 1) with (len a0) by (unfold len; rewrite app_length; cbn [length]; lia). rewrite <- app_assoc. cbn [app]. rewrite lget_app. cbn [bind]. rewrite Eni. cbn [bind wp]. exact Eki.
      - exists [], p1, p2. auto.
      - lia. }
    apply wp_ex in W as (o & E3 & ->). exists z. split; [exact E3|]. exists l, i, x, r. auto 10.
  Qed.

  (** ** _lca_2 *)
  Lemma plug_subtree (c : ctx) : forall S T : bt, subtree S T -> subtree S (plug c T).
  Proof. induction c as [|c IH i x r|c IH l i x]; intros S T H; cbn [plug]; [exact H|..]; apply IH; constructor; exact H. Qed.
  Lemma has_N (l : bt) i x r key : has (N l i x r) key <-> has l key \/ k_key x = Some key \/ has r key.
  Proof.
    unfold has. cbn [infos]. split.
    - intros (y & Hy & Ey). apply in_app_or in Hy as [Hy|[<-|Hy]]; eauto.
    - intros [(y & Hy & Ey)|[Ey|(y & Hy & Ey)]]; [exists y|exists x|exists y]; rewrite in_app_iff; cbn [In]; auto.
  Qed.
  Lemma has_side c (l : bt) i x r : ordered (infos (plug c (N l i x r))) -> exists k, k_key x = Some k /\ (forall y, has l y -> y < k) /\ (forall y, has r y -> k < y).
  Proof.
    intros HO. destruct (ordered_here _ _ _ _ _ HO) as (k & Ek & _ & _ & F1 & F2). exists k. split; [exact Ek|]. apply Forall_app in F1 as [_ F1]. apply Forall_app in F2 as [F2 _]. rewrite Forall_forall in F1, F2.
    split; intros y (u & Hu & Eu); [specialize (F1 u Hu); unfold kis in F1; rewrite Eu in F1; exact F1|specialize (F2 u Hu); unfold kis in F2; rewrite Eu in F2; exact F2].
  Qed.
  Lemma search_has (b : bst) T key : default b -> tree_at (b_mem b) (b_root b) T -> ordered (infos T) -> T <> E ->
    (has T key -> exists c l i x r, search b key = Ret (Some i) /\ T = plug c (N l i x r) /\ k_key x = Some key) /\ (~ has T key -> search b key = Ret None).
  Proof.
    intros HD HT HO HE. destruct (search_ok b T key HD HT HO HE) as (c & S & E1 & _ & ET & [P1 P2] & HS). destruct HS as [->|(l & i & x & r & -> & Ek)].
    - split; [|intros _; exact E1]. intros (y & Hy & Ey). rewrite ET, infos_plug in Hy. cbn [infos app] in Hy. rewrite Forall_forall in P1, P2. exfalso. apply in_app_or in Hy as [Hy|Hy]; [specialize (P1 y Hy); unfold kis in P1; rewrite Ey in P1; lia|specialize (P2 y Hy); unfold kis in P2; rewrite Ey in P2; lia].
    - split; [intros _; exists c, l, i, x, r; auto|]. intros X. exfalso. apply X. exists x. split; [|exact Ek]. rewrite ET, infos_plug. cbn [infos]. rewrite !in_app_iff. right. left. right. left. reflexivity.
  Qed.
  Fixpoint inT (T : bt) (i : Z) (y : info) : Prop := match T with E => False | N l j x r => (i = j /\ y = x) \/ inT l i y \/ inT r i y end.
  Lemma inT_plug (c : ctx) : forall (S : bt) i y, inT S i y -> inT (plug c S) i y.
  Proof. induction c as [|c IH j x r|c IH l j x]; intros S i y H; cbn [plug]; [exact H|..]; apply IH; cbn [inT]; auto. Qed.
  Lemma inT_infos (T : bt) i y : inT T i y -> In y (infos T).
  Proof. induction T as [|l IHl j x r IHr]; cbn [inT infos]; [auto|]. rewrite in_app_iff. cbn [In]. intros [[_ ->]|[H|H]]; auto. Qed.
  Lemma key_index (T : bt) i y i' y' k : ordered (infos T) -> inT T i y -> inT T i' y' -> k_key y = Some k -> k_key y' = Some k -> i = i'.
  Proof.
    intros HO H H' Ey Ey'. induction T as [|l IHl j x r IHr]; [destruct H|]. destruct (has_side Top _ _ _ _ HO) as (q & Eq & SL & SR). destruct (ordered_here Top _ _ _ _ HO) as (_ & _ & O1 & O2 & _ & _). cbn [cl cr app] in O1, O2. rewrite app_nil_r in O2.
    assert (HL : forall i y, inT l i y -> k_key y = Some k -> has l k) by (intros ? z Hz Ez; exists z; split; [apply (inT_infos _ _ _ Hz)|exact Ez]).
    assert (HR : forall i y, inT r i y -> k_key y = Some k -> has r k) by (intros ? z Hz Ez; exists z; split; [apply (inT_infos _ _ _ Hz)|exact Ez]).
    destruct H as [[-> ->]|[H|H]], H' as [[-> ->]|[H'|H']]; auto; exfalso; rewrite ?Eq in *;
      repeat match goal with X : inT l _ ?z |- _ => apply HL in X; [apply SL in X|assumption] | X : inT r _ ?z |- _ => apply HR in X; [apply SR in X|assumption] end; repeat match goal with X : Some _ = Some _ |- _ => injection X as X end; lia.
  Qed.
  Lemma lca_2_ok (b : bst) T j k kr : default b -> tree_at (b_mem b) (b_root b) T -> ordered (infos T) -> (exists l i x r, T = N l i x r /\ k_key x = Some kr) ->
    (has T j -> has T k -> j <> kr -> k <> kr -> exists z, lca_2 b j k = Ret (Some z) /\ is_lca T j k z) /\ (~ has T j \/ ~ has T k -> lca_2 b j k = Raise ValueError).
  Proof.
    intros HD HT HO (l0 & i0 & x0 & r0 & ET0 & Ek0). assert (HE : T <> E) by (rewrite ET0; discriminate).
    destruct (search_has b T j HD HT HO HE) as [SJ NJ]. destruct (search_has b T k HD HT HO HE) as [SK NK]. unfold lca_2. split.
    2: { intros HN. destruct (search_ok b T j HD HT HO HE) as (c1 & S1 & E1 & _). destruct (search_ok b T k HD HT HO HE) as (c2 & S2 & E2 & _). destruct HN as [HN|HN].
         - rewrite (NJ HN), E2. reflexivity.
         - rewrite E1, (NK HN). cbn [bind]. destruct (root S1); reflexivity. }
    intros HJ HK NRj NRk. destruct (SJ HJ) as (c1 & l1 & i1 & x1 & r1 & E1 & ET1 & Ek1). destruct (SK HK) as (c2 & l2 & i2 & x2 & r2 & E2 & ET2 & Ek2). rewrite E1, E2. cbn [bind].
    assert (HC1 : cell (b_mem b) i1 = Some (mknode x1 (root l1) (root r1) (cpar c1))) by (assert (X := HT); rewrite ET1 in X; apply (sub_cell _ _ _ _ _ _ _ X)).
    assert (HC2 : cell (b_mem b) i2 = Some (mknode x2 (root l2) (root r2) (cpar c2))) by (assert (X := HT); rewrite ET2 in X; apply (sub_cell _ _ _ _ _ _ _ X)).
    rewrite (tget_ok _ _ _ HC1), (tget_ok _ _ _ HC2). cbn [bind].
    assert (HC0 : cell (b_mem b) i0 = Some (mknode x0 (root l0) (root r0) None)) by (assert (X := HT); rewrite ET0 in X; apply (sub_cell _ _ Top _ _ _ _ X)).
    assert (ER : b_root b = Some i0) by (rewrite ET0 in HT; apply HT). rewrite ER, (tget_ok _ _ _ HC0). cbn [bind]. unfold n_key. cbn [n_inf]. rewrite Ek1, Ek2, Ek0. unfold comparator. rewrite HD. cbn [bind].
    match goal with |- context [while_loop ?f ?bd ?s] => assert (W : wp (while_loop f bd s) (fun o => exists z, o = Some z /\ is_lca T j k z)) end.
    { eapply (wp_while_g (fun n st => exists c l i x r q, T = plug c (N l i x r) /\ k_key x = Some q /\ st = (Some i, j <? q, k <? q) /\ has (N l i x r) j /\ has (N l i x r) k /\ j <> q /\ k <> q /\ n = Z.to_nat (nodes (N l i x r)))).
      - intros n st (c & l & i & x & r & q & ET & Eq & -> & A1 & A2 & Nj & Nk & ->). assert (HT' := HT). assert (HO' := HO). rewrite ET in HT', HO'.
        rewrite (tget_ok _ _ _ (sub_cell _ _ _ _ _ _ _ HT')). cbn [bind n_left n_right n_inf].
        destruct (has_side _ _ _ _ _ HO') as (q' & Eq' & SL & SR). rewrite Eq in Eq'. injection Eq' as <-.
        assert (J1 : (if j <? q then has l j else has r j)). { apply has_N in A1. destruct A1 as [A|[A|A]]; [|congruence|]. - assert (Y := SL _ A). apply Z.ltb_lt in Y. rewrite Y. exact A. - assert (Y := SR _ A). destruct (Z.ltb_spec j q); [lia|exact A]. }
        assert (K1 : (if k <? q then has l k else has r k)). { apply has_N in A2. destruct A2 as [A|[A|A]]; [|congruence|]. - assert (Y := SL _ A). apply Z.ltb_lt in Y. rewrite Y. exact A. - assert (Y := SR _ A). destruct (Z.ltb_spec k q); [lia|exact A]. }
        (* one step into the child S that holds both *)
        assert (STEP : forall S c', T = plug c' S -> has S j -> has S k -> nodes S < nodes (N l i x r) -> wp
          (if oeqb (root S) (Some i1) || oeqb (root S) (Some i2) then c0 <- tget (b_mem b) (root S) ;; Ret (Break (k_key (n_inf c0)))
           else c0 <- tget (b_mem b) (root S) ;; u_left <- match k_key (n_inf c0) with Some y => Ret (j <? y) | None => Raise TypeError end ;; v_left <- match k_key (n_inf c0) with Some y => Ret (k <? y) | None => Raise TypeError end ;; Ret (Next (root S, u_left, v_left)))
          (fun r0 => match r0 with
           | Next s' => exists n', (n' < Z.to_nat (nodes (N l i x r)))%nat /\ (exists c l i x r q, T = plug c (N l i x r) /\ k_key x = Some q /\ s' = (Some i, j <? q, k <? q) /\ has (N l i x r) j /\ has (N l i x r) k /\ j <> q /\ k <> q /\ n' = Z.to_nat (nodes (N l i x r)))
           | Break o => exists z, o = Some z /\ is_lca T j k z end)).
        { intros S c' ES B1 B2 LT. destruct S as [|ls is xs rs]; [destruct B1 as (? & [] & _)|]. assert (HTs := HT). assert (HOs := HO). rewrite ES in HTs, HOs. assert (HCs := sub_cell _ _ _ _ _ _ _ HTs). cbn [root]. rewrite (tget_ok _ _ _ HCs). cbn [bind n_inf].
          destruct (has_side _ _ _ _ _ HOs) as (ks & Eks & SLs & SRs). rewrite Eks. cbn [bind].
          assert (LCA : ks = j \/ ks = k -> is_lca T j k ks). { intros HKs. exists ls, is, xs, rs. split; [rewrite ES; apply plug_subtree; constructor|]. split; [exact Eks|]. split; [exact B1|]. split; [exact B2|]. split; intros [X Y]; [apply SLs in X; apply SLs in Y|apply SRs in X; apply SRs in Y]; destruct HKs; lia. }
          assert (I1 : oeqb (Some is) (Some i1) = true <-> ks = j). { cbn [oeqb]. rewrite Z.eqb_eq. split; [intros ->; rewrite HC1 in HCs; injection HCs as X _ _ _; congruence|]. intros ->. apply (key_index T is xs i1 x1 j HO); [rewrite ES|rewrite ET1|exact Eks|exact Ek1]; apply inT_plug; left; auto. }
          assert (I2 : oeqb (Some is) (Some i2) = true <-> ks = k). { cbn [oeqb]. rewrite Z.eqb_eq. split; [intros ->; rewrite HC2 in HCs; injection HCs as X _ _ _; congruence|]. intros ->. apply (key_index T is xs i2 x2 k HO); [rewrite ES|rewrite ET2|exact Eks|exact Ek2]; apply inT_plug; left; auto. }
          destruct (oeqb (Some is) (Some i1)) eqn:Q1; cbn [orb]; [cbn [wp]; exists ks; split; [reflexivity|]; apply LCA; left; apply I1; reflexivity|].
          destruct (oeqb (Some is) (Some i2)) eqn:Q2; cbn [orb]; [cbn [wp]; exists ks; split; [reflexivity|]; apply LCA; right; apply I2; reflexivity|].
          cbn [wp]. eexists. split; [|exists c', ls, is, xs, rs, ks; split; [exact ES|]; split; [exact Eks|]; split; [reflexivity|]; split; [exact B1|]; split; [exact B2|]; split; [|split; [|reflexivity]]].
          - pose proof (nodes_nonneg (N ls is xs rs)). lia.
          - intros ->. assert (false = true) by (apply I1; reflexivity). discriminate.
          - intros ->. assert (false = true) by (apply I2; reflexivity). discriminate. }
        pose proof (nodes_nonneg l). pose proof (nodes_nonneg r).
        destruct (Z.ltb_spec j q) as [Lj|Lj], (Z.ltb_spec k q) as [Lk|Lk]; cbn [xorb negb andb].
        + apply (STEP l (CL c i x r) ET J1 K1). cbn [nodes]. lia.
        + cbn [wp]. exists q. split; [exact Eq|]. exists l, i, x, r. split; [rewrite ET; apply plug_subtree; constructor|]. split; [exact Eq|]. split; [exact A1|]. split; [exact A2|]. split; intros [X Y]; [apply SL in Y; lia|apply SR in X; lia].
        + cbn [wp]. exists q. split; [exact Eq|]. exists l, i, x, r. split; [rewrite ET; apply plug_subtree; constructor|]. split; [exact Eq|]. split; [exact A1|]. split; [exact A2|]. split; intros [X Y]; [apply SL in X; lia|apply SR in Y; lia].
        + apply (STEP r (CR c l i x) ET J1 K1). cbn [nodes]. lia.
      - exists Top, l0, i0, x0, r0, kr. rewrite ET0 in HJ, HK. auto 10.
      - rewrite <- ET0. apply (fuel_ok _ _ _ HT). }
    apply wp_ex in W as (o & E3 & z & -> & H). exists z. auto.
  Qed.
End Lca.
