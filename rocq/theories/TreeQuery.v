(** Proofs: bounds, order statistics and lowest common ancestors of a BinarySearchTree. *)
From Coq Require Import Sorted.
From Verif Require Import Base TreeModel TreeProofs TreeRotate TreeBst.

Section Query.
  Context {D : Type}.
  Notation info := (info D). Notation node := (node D). Notation mem := (mem D). Notation bst := (bst D). Notation bt := (bt D). Notation ctx := (ctx D).

  (** ** bounds *)
  (** what lower_bound (upper_bound) should return: the first key that is at least (greater than) [key] *)
  Definition above (up : bool) (key k : Z) : bool := if up then key <? k else key <=? k.
  Fixpoint first_above (up : bool) (key : Z) (l : list info) : option Z :=
    match l with
    | [] => None
    | x :: l' => match k_key x with Some k => if above up key k then Some k else first_above up key l' | None => first_above up key l' end
    end.
  Lemma fa_app u key a b : first_above u key (a ++ b) = match first_above u key a with Some k => Some k | None => first_above u key b end.
  Proof. induction a as [|x a IH]; cbn [app first_above]; [reflexivity|]. destruct (k_key x) as [k|]; [|exact IH]. destruct (above u key k); [reflexivity|exact IH]. Qed.
  Lemma fa_none u key l : Forall (kis (fun k => above u key k = false)) l -> first_above u key l = None.
  Proof. induction 1 as [|x l Hx _ IH]; cbn [first_above]; [reflexivity|]. unfold kis in Hx. destruct (k_key x) as [k|]; [|exact IH]. rewrite Hx. exact IH. Qed.
  Lemma bound_helper_ok b key u : default b -> forall f S p, rep (b_mem b) S p -> ordered (infos S) -> (Z.to_nat (nodes S) < f)%nat ->
    bound_helper f b (root S) key u = Ret (first_above u key (infos S)).
  Proof.
    intros HD f. induction f as [|f IH]; intros S p HR HO HF; [lia|]. destruct S as [|l i x r]; cbn [root bound_helper]; [reflexivity|].
    destruct HR as (A & L & R). rewrite (tget_ok _ _ _ A). cbn [bind]. unfold n_key. cbn [n_inf n_left n_right].
    destruct (ordered_here Top _ _ _ _ HO) as (k & Ek & O1 & O2 & F1 & F2). cbn [cl cr app] in O1, F1. cbn [cr] in O2, F2. rewrite app_nil_r in O2, F2. rewrite Ek.
    cbn [nodes] in HF. pose proof (nodes_nonneg l). pose proof (nodes_nonneg r).
    cbn [infos]. rewrite fa_app. cbn [first_above]. rewrite Ek. cbn [oeqb].
    destruct (Z.eqb_spec k key) as [->|NE].
    - rewrite (fa_none u key (infos l)); [|eapply kis_mono; [|exact F1]; intros z Hz; cbn beta in *; unfold above; destruct u; lia].
      destruct u; cbn [negb above]; [rewrite Z.ltb_irrefl; apply (IH r (Some i)); [assumption|assumption|lia]|]. rewrite Z.leb_refl. reflexivity.
    - unfold comparator. rewrite HD. cbn [bind]. destruct (Z.ltb_spec k key) as [LT|GE].
      + rewrite (fa_none u key (infos l)); [|eapply kis_mono; [|exact F1]; intros z Hz; cbn beta in *; unfold above; destruct u; lia].
        replace (above u key k) with false by (unfold above; destruct u; lia). apply (IH r (Some i)); [assumption|assumption|lia].
      + rewrite (IH l (Some i)) by (assumption || lia). cbn [bind]. destruct (first_above u key (infos l)) as [z|]; [reflexivity|]. replace (above u key k) with true by (unfold above; destruct u; lia). reflexivity.
  Qed.
  Lemma bounds_ok b T key : default b -> tree_at (b_mem b) (b_root b) T -> ordered (infos T) ->
    lower_bound b key = Ret (first_above false key (infos T)) /\ upper_bound b key = Ret (first_above true key (infos T)).
  Proof.
    intros HD HT HO. assert (HF := fuel_ok _ _ _ HT). destruct HT as (HR & _ & ER). unfold lower_bound, upper_bound. rewrite ER. split; eapply bound_helper_ok; eassumption.
  Qed.

  (** ** order statistics *)
  Definition nthi (l : list info) (i : Z) : option info := nth_error l (Z.to_nat i).
  Lemma nthi_app1 (a b : list info) i : 0 <= i < len a -> nthi (a ++ b) i = nthi a i.
  Proof. unfold nthi, len. intros H. apply nth_error_app1. lia. Qed.
  Lemma nthi_app2 (a b : list info) i : len a <= i -> nthi (a ++ b) i = nthi b (i - len a).
  Proof. unfold nthi, len. intros H. rewrite nth_error_app2 by lia. f_equal. lia. Qed.
  Lemma select_ok b T i : default b -> tree_at (b_mem b) (b_root b) T -> ordered (infos T) -> sized T -> a_num (b_arr b) = nodes T ->
    1 <= i <= nodes T -> exists n x, select b i = Ret (Some n) /\ n_inf n = x /\ nthi (infos T) (i - 1) = Some x.
  Proof.
    intros HD HT HO HS HN HI. assert (W : wp (select b i) (fun r => exists n, r = Some n /\ nthi (infos T) (i - 1) = Some (n_inf n))).
    { unfold select. destruct (Z.ltb_spec (i - 1) 0); [lia|]. destruct (Z.leb_spec (a_num (b_arr b)) (i - 1)); [lia|].
      eapply (wp_while_g (fun n st => exists c S, T = plug c S /\ fst st = root S /\ 0 <= snd st < nodes S /\ nthi (infos S) (snd st) = nthi (infos T) (i - 1) /\ n = Z.to_nat (nodes S))).
      - intros n [walk j] (c & S & ET & Ew & Hj & Ej & ->). cbn [fst snd] in *. subst walk. destruct S as [|l q x r]; [cbn [nodes] in Hj; lia|]. cbn [root].
        assert (HT1 := HT). assert (HO1 := HO). assert (HS1 := HS). rewrite ET in HT1, HO1, HS1. apply sized_plug in HS1 as [HS1 _]. destruct HS1 as (_ & HSl & HSr).
        assert (HC := sub_cell _ _ _ _ _ _ _ HT1). rewrite (tget_ok _ _ _ HC). cbn [bind]. assert (HT2 := HT1). destruct HT2 as (HR & _ & _). apply rep_plug in HR as (_ & _ & L & R).
        rewrite (root_size _ l _ L HSl) by reflexivity. cbn [bind n_left n_right]. unfold n_key. cbn [n_inf].
        destruct (ordered_here _ _ _ _ _ HO1) as (k & Ek & O1 & O2 & F1 & F2). apply Forall_app in F1 as [_ F1]. apply Forall_app in F2 as [F2 _].
        cbn [infos nodes] in Ej, Hj. pose proof (infos_len l) as Ll. pose proof (nodes_nonneg l). pose proof (nodes_nonneg r).
        destruct (Z.eqb_spec j (nodes l)) as [->|NE].
        + cbn [wp]. eexists. split; [reflexivity|]. cbn [n_inf]. rewrite <- Ej, nthi_app2 by lia. rewrite Ll, Z.sub_diag. reflexivity.
        + destruct (Z.ltb_spec j (nodes l)) as [LT|GE].
          * destruct l as [|ll li lx lr]; [cbn [nodes] in *; lia|]. cbn [root]. destruct L as (A & _). rewrite (tget_ok _ _ _ A). cbn [bind n_inf].
            assert (exists kl, k_key lx = Some kl /\ kl < k) as (kl & Ekl & Hkl). { cbn [infos] in F1. apply Forall_app in F1 as [_ F1]. inversion F1 as [|? ? Hx _]; subst. unfold kis in Hx. destruct (k_key lx) as [kl|]; [eauto|destruct Hx]. }
            unfold comparator. rewrite HD. rewrite Ek, Ekl. replace (kl <? k) with true by lia. cbn [bind wp].
            eexists. split; [|exists (CL c q x r), (N ll li lx lr); split; [exact ET|]; cbn [fst snd root]; split; [reflexivity|]; split; [lia|]; split; [|reflexivity]].
            -- cbn [nodes] in *. lia.
            -- rewrite <- Ej. rewrite nthi_app1 by lia. reflexivity.
          * destruct r as [|rl ri rx rr]; [cbn [nodes] in *; lia|]. cbn [root]. destruct R as (A & _). rewrite (tget_ok _ _ _ A). cbn [bind n_inf].
            assert (exists kr, k_key rx = Some kr /\ k < kr) as (kr & Ekr & Hkr). { cbn [infos] in F2. apply Forall_app in F2 as [_ F2]. inversion F2 as [|? ? Hx _]; subst. unfold kis in Hx. destruct (k_key rx) as [kr|]; [eauto|destruct Hx]. }
            unfold comparator. rewrite HD. rewrite Ek, Ekr. replace (kr <? k) with false by lia. cbn [bind negb wp].
            replace (match root l with Some _ => Ret (Next (Some ri, j - (nodes l + 1))) | None => Ret (Next (Some ri, j - (nodes l + 1))) end) with (Ret (Next (Some ri, j - (nodes l + 1))) : res (ctl (option Z * Z) (option node))) by (destruct (root l); reflexivity).
            cbn [wp]. eexists. split; [|exists (CR c l q x), (N rl ri rx rr); split; [exact ET|]; cbn [fst snd root]; split; [reflexivity|]; split; [lia|]; split; [|reflexivity]].
            -- cbn [nodes] in *. lia.
            -- rewrite <- Ej. rewrite nthi_app2 by lia. change (x :: infos (N rl ri rx rr)) with ([x] ++ infos (N rl ri rx rr)). rewrite nthi_app2 by (unfold len in *; cbn [length]; lia). f_equal. unfold len in *. cbn [length]. lia.
      - exists Top, T. cbn [fst snd]. destruct HT as (_ & _ & ->). split; [reflexivity|]. split; [reflexivity|]. split; [lia|]. split; reflexivity.
      - apply (fuel_ok _ _ _ HT). }
    apply wp_ex in W as (r & E1 & n & -> & H). eauto.
  Qed.
  Lemma nodes_num (b : bst) (T : bt) : grown b T -> a_num (b_arr b) = nodes T.
  Proof. intros G. rewrite (g_num _ _ G), (g_nodes _ _ G). reflexivity. Qed.

  (** number of keys less than or equal to x *)
  Definition count_le (x : Z) (l : list info) : Z := len (filter (fun y => match k_key y with Some k => k <=? x | None => false end) l).
  Lemma count_le_app x a b : count_le x (a ++ b) = count_le x a + count_le x b.
  Proof. unfold count_le, len. rewrite filter_app, app_length. lia. Qed.
  Lemma count_le_all x l : Forall (kis (fun k => k <= x)) l -> count_le x l = len l.
  Proof. induction 1 as [|y l Hy _ IH]; [reflexivity|]. unfold count_le, len in *. cbn [filter]. unfold kis in Hy. destruct (k_key y) as [k|]; [|destruct Hy]. replace (k <=? x) with true by lia. cbn [length]. lia. Qed.
  Lemma count_le_none x l : Forall (kis (fun k => x < k)) l -> count_le x l = 0.
  Proof. induction 1 as [|y l Hy _ IH]; [reflexivity|]. unfold count_le, len in *. cbn [filter]. unfold kis in Hy. destruct (k_key y) as [k|]; [|destruct Hy]. replace (k <=? x) with false by lia. exact IH. Qed.
  Lemma ordered_uniq (a : list info) x b y c k : ordered (a ++ x :: b ++ y :: c) -> k_key x = Some k -> k_key y = Some k -> False.
  Proof. intros H Ex Ey. apply ordered_mid in H as (_ & _ & k' & E' & _ & F). rewrite Ex in E'. injection E' as <-. apply Forall_app in F as [_ F]. inversion F as [|? ? Hy _]; subst. unfold kis in Hy. rewrite Ey in Hy. lia. Qed.
  Lemma root_info (c : ctx) : c <> Top -> forall S : bt, exists rl ri rx rr, plug c S = N rl ri rx rr /\ (In rx (cl c) \/ In rx (cr c)).
  Proof.
    induction c as [|c IH i x r|c IH l i x]; intros HC S; [congruence|..]; cbn [plug cl cr].
    - destruct c as [|c' i' x' r'|c' l' i' x']; [exists S, i, x, r; split; [reflexivity|]; right; left; reflexivity|..];
        (destruct (IH ltac:(discriminate) (N S i x r)) as (rl & ri & rx & rr & E1 & H); exists rl, ri, rx, rr; split; [exact E1|]; destruct H as [H|H]; [left; exact H|right; right; apply in_or_app; right; exact H]).
    - destruct c as [|c' i' x' r'|c' l' i' x']; [exists l, i, x, S; split; [reflexivity|]; left; apply in_or_app; right; apply in_or_app; right; left; reflexivity|..];
        (destruct (IH ltac:(discriminate) (N l i x S)) as (rl & ri & rx & rr & E1 & H); exists rl, ri, rx, rr; split; [exact E1|]; destruct H as [H|H]; [left; apply in_or_app; left; exact H|right; exact H]).
  Qed.
  Lemma rank_ok b T x : default b -> tree_at (b_mem b) (b_root b) T -> ordered (infos T) -> sized T -> T <> E ->
    rank b x = Ret (if existsb (fun y => oeqb (k_key y) (Some x)) (infos T) then Some (count_le x (infos T)) else None).
  Proof.
    intros HD HT HO HS HE. destruct (search_ok b T x HD HT HO HE) as (c & S & E1 & _ & ET & [P1 P2] & HS1). unfold rank. rewrite E1. cbn [bind]. destruct HS1 as [->|(l & i & y & r & -> & Ek)].
    - cbn [root]. f_equal. replace (existsb (fun y => oeqb (k_key y) (Some x)) (infos T)) with false; [reflexivity|]. symmetry. apply not_true_is_false. intros H. apply existsb_exists in H as (y & Hy & Ey). destruct (oeqb_spec (k_key y) (Some x)) as [Ex|]; [|discriminate].
      rewrite ET, infos_plug in Hy. cbn [infos app] in Hy. rewrite Forall_forall in P1, P2. apply in_app_or in Hy as [Hy|Hy]; [specialize (P1 y Hy); unfold kis in P1; rewrite Ex in P1; lia|specialize (P2 y Hy); unfold kis in P2; rewrite Ex in P2; lia].
    - cbn [root]. rewrite ET in HT, HO, HS. rewrite ET. clear HE E1 ET T. assert (HC := sub_cell _ _ _ _ _ _ _ HT). rewrite (tget_ok _ _ _ HC). cbn [bind].
      assert (HR := proj1 HT). apply rep_plug in HR as (_ & _ & L & _). destruct (sized_plug _ _ HS) as [(_ & HSl & _) _]. rewrite (root_size _ l _ L HSl) by reflexivity. cbn [bind].
      assert (EX : existsb (fun y => oeqb (k_key y) (Some x)) (infos (plug c (N l i y r))) = true). { apply existsb_exists. exists y. rewrite infos_plug. cbn [infos]. split; [rewrite !in_app_iff; right; left; right; left; reflexivity|]. rewrite Ek. cbn [oeqb]. apply Z.eqb_refl. }
      rewrite EX.
      assert (EC : nodes l + 1 = count_le x (infos (N l i y r))).
      { destruct (ordered_here _ _ _ _ _ HO) as (k & Ek' & _ & _ & F1 & F2). rewrite Ek in Ek'. injection Ek' as <-. apply Forall_app in F1 as [_ F1]. apply Forall_app in F2 as [F2 _]. cbn [infos]. change (y :: infos r) with ([y] ++ infos r). rewrite !count_le_app.
        rewrite (count_le_all x (infos l)) by (eapply kis_mono; [|exact F1]; intros z Hz; cbn beta in *; lia). rewrite (count_le_none x (infos r)) by exact F2. rewrite infos_len. unfold count_le, len. cbn [filter]. rewrite Ek, Z.leb_refl. cbn [length]. lia. }
      match goal with |- while_loop ?f ?bd ?s = _ => assert (W : wp (while_loop f bd s) (fun o => o = Some (count_le x (infos (plug c (N l i y r)))))) end.
      { set (T := plug c (N l i y r)) in *.
        eapply (wp_while_g (fun n st => exists c' l' i' y' r', T = plug c' (N l' i' y' r') /\ path_to x c' /\ fst st = Some i' /\ snd st = count_le x (infos (N l' i' y' r')) /\ n = S (clen c'))).
        - intros n [walk q] (c' & l' & i' & y' & r' & ET & [Q1 Q2] & Ew & Eq & ->). cbn [fst snd] in Ew, Eq. subst walk q. rewrite ET in HT, HO. assert (HC' := sub_cell _ _ _ _ _ _ _ HT). rewrite (tget_ok _ _ _ HC'). cbn [bind n_parent].
          assert (STEP : c' <> Top -> wp (rt <- tget (b_mem b) (b_root b) ;; (if oeqb (n_key (mknode y' (root l') (root r') (cpar c'))) (n_key rt) then Ret true else Ret false)) (fun v => v = false)).
          { intros HCt. destruct (root_info c' HCt (N l' i' y' r')) as (rl & ri & rx & rr & ER & HIN). assert (HT' := HT). rewrite ER in HT'. destruct HT' as (HRr & _ & ->). destruct HRr as (HCr & _). cbn [root]. rewrite (tget_ok _ _ _ HCr). cbn [bind]. unfold n_key. cbn [n_inf].
            destruct (oeqb_spec (k_key y') (k_key rx)) as [EK|]; [|reflexivity]. exfalso. destruct (ordered_here _ _ _ _ _ HO) as (k & Ek' & _ & _ & F1 & F2). apply Forall_app in F1 as [F1 _]. apply Forall_app in F2 as [_ F2]. rewrite Forall_forall in F1, F2.
            destruct HIN as [H|H]; [specialize (F1 _ H); unfold kis in F1; rewrite <- EK, Ek' in F1; lia|specialize (F2 _ H); unfold kis in F2; rewrite <- EK, Ek' in F2; lia]. }
          assert (HRT : exists nr, tget (b_mem b) (b_root b) = Ret nr).
          { destruct (root_cell _ _ _ HT) as (rl & ri & rx & rr & _ & -> & HCr); [intros X; apply (f_equal (@nodes D)) in X; pose proof (nodes_plug_le c' (N l' i' y' r')); cbn [nodes] in *; pose proof (nodes_nonneg l'); pose proof (nodes_nonneg r'); lia|]. rewrite (tget_ok _ _ _ HCr). eauto. }
          destruct HRT as (nr & HRT). rewrite HRT in STEP |- *. cbn [bind] in STEP |- *.
          destruct c' as [|c' j z w|c' w j z]; cbn [cpar] in *.
          + cbn [plug] in *. assert (nr = mknode y' (root l') (root r') None) as ->. { destruct HT as (_ & _ & EB). rewrite EB in HRT. cbn [root] in HRT. rewrite (tget_ok _ _ _ HC') in HRT. congruence. }
            destruct (oeqb_spec (n_key (mknode y' (root l') (root r') None)) (n_key (mknode y' (root l') (root r') None))) as [_|X]; [|congruence]. cbn [wp]. rewrite ET. reflexivity.
          + specialize (STEP ltac:(discriminate)). destruct (oeqb (n_key (mknode y' (root l') (root r') (Some j))) (n_key nr)); [discriminate STEP|]. clear STEP. assert (HP := HT). cbn [plug] in HP. assert (HCp := sub_cell _ _ _ _ _ _ _ HP). rewrite (tget_ok _ _ _ HCp). cbn [bind n_right].
            replace (oeqb (Some i') (root w)) with false; [|symmetry; destruct (oeqb_spec (Some i') (root w)) as [X|]; [|reflexivity]; symmetry in X; apply root_In in X; destruct HP as (_ & ND & _); rewrite nodup_cnt in ND; exfalso; dj ND].
            cbn [wp]. exists (S (clen c')). split; [cbn [clen]; lia|]. exists c', (N l' i' y' r'), j, z, w. cbn [fst snd]. split; [exact ET|]. cbn [cl cr] in Q1, Q2. inversion Q2 as [|? ? Qz Qw]; subst. apply Forall_app in Qw as [Qw Qc]. split; [split; assumption|]. split; [reflexivity|]. split; [|reflexivity].
            change (infos (N (N l' i' y' r') j z w)) with (infos (N l' i' y' r') ++ [z] ++ infos w). rewrite !count_le_app. rewrite (count_le_none x (infos w)) by exact Qw. rewrite (count_le_none x [z]) by (constructor; [exact Qz|constructor]). lia.
          + specialize (STEP ltac:(discriminate)). destruct (oeqb (n_key (mknode y' (root l') (root r') (Some j))) (n_key nr)); [discriminate STEP|]. clear STEP. assert (HP := HT). cbn [plug] in HP. assert (HCp := sub_cell _ _ _ _ _ _ _ HP). rewrite (tget_ok _ _ _ HCp). cbn [bind n_right root].
            replace (oeqb (Some i') (Some i')) with true by (cbn [oeqb]; rewrite Z.eqb_refl; reflexivity).
            assert (HRw := proj1 HP). apply rep_plug in HRw as (_ & _ & Lw & _). assert (SZ := HS). rewrite ET in SZ. cbn [plug] in SZ. apply sized_plug in SZ as [(_ & SZ & _) _]. rewrite (root_size _ w _ Lw SZ) by reflexivity. cbn [bind wp].
            exists (S (clen c')). split; [cbn [clen]; lia|]. exists c', w, j, z, (N l' i' y' r'). cbn [fst snd]. split; [exact ET|]. cbn [cl cr] in Q1, Q2. rewrite !Forall_app in Q1. destruct Q1 as (Qc & Qw & Qz). split; [split; assumption|]. split; [reflexivity|]. split; [|reflexivity].
            change (infos (N w j z (N l' i' y' r'))) with (infos w ++ [z] ++ infos (N l' i' y' r')). rewrite !count_le_app. rewrite (count_le_all x (infos w)) by (eapply kis_mono; [|exact Qw]; intros q Hq; cbn beta in *; lia). rewrite (count_le_all x [z]) by (eapply kis_mono; [|exact Qz]; intros q Hq; cbn beta in *; lia).
            rewrite infos_len. unfold len at 1. cbn [length]. lia.
        - exists c, l, i, y, r. cbn [fst snd]. split; [reflexivity|]. split; [split; assumption|]. split; [reflexivity|]. split; [exact EC|reflexivity].
        - apply (clen_fuel _ _ _ _ _ _ _ HT). }
      apply wp_ex in W as (o & E2 & ->). exact E2.
  Qed.
End Query.
