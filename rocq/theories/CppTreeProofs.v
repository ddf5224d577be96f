(** Proofs: the C++ search trees follow the sorted list of entries; what their queries return. *)
From Coq Require Import Sorting.Sorted.
From Verif Require Import Base TreeModel TreeModel2 TreeSpec TreeProofs TreeRotate TreeBst TreeTrav TreeQuery TreeLca TreeDel TreeHist TreeBalSpec TreeAvl TreeAvl2 TreeMulti TreeHist2Spec TreeHist2 TreeHist3 CppArrayModel CppTreeModel CppTreeQuery CppTreeSim CppTreeSpec.

Section CPP.
  Context {K D : Type} (same : K -> K -> bool) (val : K -> Z) (rk : K -> Z).
  Hypothesis same_ok : forall x y, same x y = true <-> x = y.
  Hypothesis rk_inj : forall x y, rk x = rk y -> x = y.
  Notation bt := (bt D). Notation bst := (bst D). Notation ktree := (ktree K D). Notation ctree := (ctree K D).
  Notation RB := (RB (D := D) rk). Notation dm := (dm rk). Notation dn := (dn rk). Notation dt := (dt rk).

  (** the same tree with names for keys *)
  Fixpoint twin (T : bt) (U : ktree) : Prop :=
    match T, U with
    | E, KE => True
    | N l _ x r, KN l' k d r' => k_key x = Some (rk k) /\ k_data x = d /\ twin l l' /\ twin r r'
    | _, _ => False
    end.
  Lemma get_back (t : cmem K D) i n' : cell (dm t) i = Some n' -> exists n, cget t (Some i) = Ret n /\ n' = dn n.
  Proof. intros H. apply tget_ok in H. destruct (sim_get rk (length t) t (dm t) (Some i) (conj eq_refl eq_refl) _ H) as (n & E1 & E2). eauto. Qed.
  Lemma twin_ex (t : cmem K D) T : forall p, rep (dm t) T p -> Forall (kis (fun _ => True)) (infos T) -> exists U, held t (root T) p U /\ twin T U.
  Proof.
    induction T as [|l IHl i x r IHr]; intros p; [intros _ _; exists KE; cbn; auto|]. cbn [rep infos root]. intros (HC & HL & HR) HF. apply Forall_app in HF as [FL FR]. inversion FR as [|? ? Fx FR']; subst.
    destruct (IHl _ HL FL) as (Ul & H1 & W1). destruct (IHr _ HR FR') as (Ur & H2 & W2). destruct (get_back _ _ _ HC) as (n & En & Ed). destruct n as [y lf rg pr]. unfold CppTreeSim.dn in Ed. cbn [cn_inf cn_left cn_right cn_parent] in Ed. injection Ed as Ex1 Ex2 Ex3 Ex4. subst x lf rg pr.
    unfold kis in Fx. cbn [di k_key] in Fx. destruct (ck_key y) as [k|] eqn:Ek; [|destruct Fx]. exists (KN Ul k (ck_data y) Ur). split.
    - cbn [held]. eexists. split; [exact En|]. unfold cn_key. cbn [cn_inf cn_left cn_right cn_parent]. auto 6.
    - cbn [twin di k_key k_data]. rewrite Ek. cbn. auto.
  Qed.
  Lemma twin_ents T : forall U, twin T U -> entries T = named_entries rk (kents U).
  Proof.
    unfold entries, named_entries. induction T as [|l IHl i x r IHr]; intros [|l' k d r']; cbn [twin]; try tauto. intros (Ek & Ed & H1 & H2). cbn [infos kents]. rewrite !map_app. cbn [map fst snd]. rewrite (IHl _ H1), (IHr _ H2). unfold entry at 1. rewrite Ek, Ed. reflexivity.
  Qed.
  Lemma twin_root T U : twin T U -> rkey T = option_map rk (kroot U).
  Proof. destruct T, U; cbn; try tauto. Qed.
  Lemma twin_has T : forall U, twin T U -> forall k, has T (rk k) <-> kin k U.
  Proof.
    induction T as [|l IHl i x r IHr]; intros [|l' k0 d r']; cbn [twin]; try tauto.
    - intros _ k. split; [intros (y & [] & _)|intros []].
    - intros (Ek & _ & H1 & H2) k. cbn [kin]. rewrite <- (IHl _ H1 k), <- (IHr _ H2 k). unfold has. cbn [infos]. split.
      + intros (y & Hy & Ey). apply in_app_or in Hy as [Hy|[<-|Hy]]; [right; left; eauto| |right; right; eauto]. left. apply rk_inj. congruence.
      + intros [->|[(y & Hy & Ey)|(y & Hy & Ey)]]; [exists x|exists y|exists y]; (split; [apply in_or_app; cbn [In]; auto|assumption]).
  Qed.
  Lemma twin_lca T : forall U, twin T U -> forall j k z, is_lca T (rk j) (rk k) z -> exists z0, z = rk z0 /\ klca U j k z0.
  Proof.
    induction T as [|l IHl i x r IHr]; intros U H j k z (l1 & i1 & x1 & r1 & HS & Ez & A1 & A2 & A3 & A4); [inversion HS|]. destruct U as [|l' k0 d r']; [destruct H|]. assert (H0 := H). destruct H as (Ek & Ed & H1 & H2). inversion HS; subst.
    - exists k0. split; [congruence|]. cbn [klca]. left. split; [reflexivity|]. rewrite (twin_has _ _ H0) in A1, A2. rewrite !(twin_has _ _ H1) in A3. rewrite !(twin_has _ _ H2) in A4. auto.
    - destruct (IHl _ H1 j k z) as (z0 & -> & HZ); [exists l1, i1, x1, r1; auto 10|]. exists z0. split; [reflexivity|]. cbn [klca]. auto.
    - destruct (IHr _ H2 j k z) as (z0 & -> & HZ); [exists l1, i1, x1, r1; auto 10|]. exists z0. split; [reflexivity|]. cbn [klca]. auto.
  Qed.
  Lemma twin_height T : forall U, twin T U -> kheight U = height T.
  Proof. induction T as [|l IHl i x r IHr]; intros [|l' k0 d r']; cbn [twin]; try tauto. intros (_ & _ & H1 & H2). cbn. rewrite (IHl _ H1), (IHr _ H2). reflexivity. Qed.
  Lemma twin_balanced T : forall U, twin T U -> balanced T -> kbalanced U.
  Proof. induction T as [|l IHl i x r IHr]; intros [|l' k0 d r']; cbn [twin balanced kbalanced]; try tauto. intros (_ & _ & H1 & H2). rewrite (twin_height _ _ H1), (twin_height _ _ H2). intuition. Qed.
  Lemma twin_pre T : forall U, twin T U -> map k_key (pre T) = map (fun k => Some (rk k)) (kpre U).
  Proof. induction T as [|l IHl i x r IHr]; intros [|l' k0 d r']; cbn [twin]; try tauto. intros (Ek & _ & H1 & H2). cbn. rewrite !map_app, (IHl _ H1), (IHr _ H2), Ek. reflexivity. Qed.
  Lemma twin_post T : forall U, twin T U -> map k_key (post T) = map (fun k => Some (rk k)) (kpost U).
  Proof. induction T as [|l IHl i x r IHr]; intros [|l' k0 d r']; cbn [twin]; try tauto. intros (Ek & _ & H1 & H2). cbn. rewrite !map_app, (IHl _ H1), (IHr _ H2). cbn. rewrite Ek. reflexivity. Qed.
  Lemma zip_map {A B} (f : A -> B) : forall (a b : list (list A)), map (map f) (zipapp a b) = zipapp (map (map f) a) (map (map f) b).
  Proof. induction a as [|x a IH]; intros [|y b]; cbn; auto. rewrite map_app, IH. reflexivity. Qed.
  Lemma kzip_zip (a : list (list K)) : forall b, kzip a b = zipapp a b.
  Proof. induction a as [|x a IH]; intros [|y b]; cbn; auto. rewrite IH. reflexivity. Qed.
  Lemma twin_levels T : forall U, twin T U -> map (map k_key) (levels T) = map (map (fun k => Some (rk k))) (klevels U).
  Proof. induction T as [|l IHl i x r IHr]; intros [|l' k0 d r']; cbn [twin]; try tauto. intros (Ek & _ & H1 & H2). cbn. rewrite kzip_zip, !zip_map, (IHl _ H1), (IHr _ H2), Ek. reflexivity. Qed.
  Lemma twin_infos T : forall U, twin T U -> map (fun x => (k_key x, k_data x)) (infos T) = map (fun e => (Some (rk (fst e)), snd e)) (kents U).
  Proof. induction T as [|l IHl i x r IHr]; intros [|l' k0 d r']; cbn [twin]; try tauto. intros (Ek & Ed & H1 & H2). cbn [infos kents]. rewrite !map_app. cbn [map fst snd]. rewrite (IHl _ H1), (IHr _ H2), Ek, Ed. reflexivity. Qed.

  (** back from names to key objects *)
  Lemma osome_inj (a b : option K) : option_map rk a = option_map rk b -> a = b.
  Proof. destruct a, b; cbn; intros H; try discriminate; [injection H as H; apply rk_inj in H; congruence|reflexivity]. Qed.
  Lemma keys_back (v : list (cinfo K D)) (l : list K) : map k_key (map (di rk) v) = map (fun k => Some (rk k)) l -> map ck_key v = map Some l.
  Proof.
    revert l. induction v as [|x v IH]; intros [|k l]; cbn [map]; try discriminate; [reflexivity|]. intros H. injection H as H1 H2. f_equal; [|apply IH; exact H2]. apply osome_inj. exact H1.
  Qed.
  Lemma shows_back (v : list (cinfo K D)) (l : list (K * option D)) : map (fun x => (k_key x, k_data x)) (map (di rk) v) = map (fun e => (Some (rk (fst e)), snd e)) l -> cshows v l.
  Proof.
    unfold cshows. revert l. induction v as [|x v IH]; intros [|[k d] l]; cbn [map fst snd]; try discriminate; [reflexivity|]. intros H. injection H as H1 H2 H3. f_equal; [|apply IH; exact H3]. cbn [di k_key k_data] in *. f_equal; [|exact H2]. apply osome_inj. exact H1.
  Qed.
  Lemma in_named (l : list (K * option D)) k : In (rk k) (map fst (named_entries rk l)) <-> In k (map fst l).
  Proof.
    unfold named_entries. rewrite map_map. cbn [fst]. rewrite !in_map_iff. split; intros ((k1 & d) & E1 & H); exists (k1, d); cbn [fst] in *; (split; [|exact H]); [apply rk_inj; exact E1|congruence].
  Qed.

  (** ** the queries, on any tree *)
  Record cgood (b : ctree) (T : bt) (U : ktree) : Prop := {
    cg_def : default (dt b);
    cg_wf : wfc rk b;
    cg_at : tree_at (dm (ct_mem b)) (ct_root b) T;
    cg_ord : ordered (infos T);
    cg_ne : T <> E;
    cg_num : cr_num (ct_arr b) = nodes T;
    cg_twin : twin T U }.
  Lemma cg_RB b T U : cgood b T U -> RB b (dt b).
  Proof. intros G. split; [reflexivity|]. apply (cg_wf _ _ _ G). Qed.
  Lemma cg_ents b T U : cgood b T U -> entries T = named_entries rk (kents U).
  Proof. intros G. apply twin_ents. apply (cg_twin _ _ _ G). Qed.
  Lemma cg_sorted b T U : cgood b T U -> StronglySorted Z.lt (map rk (map fst (kents U))).
  Proof. intros G. destruct (entries_ok (infos T) (cg_ord _ _ _ G)) as [H _]. fold (entries T) in H. rewrite (cg_ents _ _ _ G) in H. unfold named_entries in H. rewrite map_map in H. rewrite map_map. exact H. Qed.
  Lemma find_named (l : list (K * option D)) k d : StronglySorted Z.lt (map rk (map fst l)) -> In (k, d) l -> find (fun e => fst e =? rk k) (named_entries rk l) = Some (rk k, d).
  Proof.
    induction l as [|[k1 d1] l IH]; intros HS HI; [destruct HI|]. cbn [map fst] in HS. apply StronglySorted_inv in HS as [HS HF]. cbn [named_entries map find fst snd]. destruct HI as [HI|HI].
    - injection HI as -> ->. rewrite Z.eqb_refl. reflexivity.
    - rewrite Forall_forall in HF. assert (H := HF (rk k)). destruct (Z.eqb_spec (rk k1) (rk k)) as [E1|_]; [|apply IH; assumption]. exfalso. assert (rk k1 < rk k); [|lia]. apply H. apply in_map. apply in_map_iff. exists (k, d). auto.
  Qed.
  Lemma cg_finds b T U : cgood b T U -> cfinds same b (kents U).
  Proof.
    intros G. assert (HB := cg_RB _ _ _ G). assert (HF : finds (dt b) (named_entries rk (kents U))). { rewrite <- (cg_ents _ _ _ G). apply wfinds; [apply (cg_def _ _ _ G)|apply (tree_wtree _ _ _ (cg_at _ _ _ G))|apply (cg_ord _ _ _ G)|apply (cg_ne _ _ _ G)]. } split.
    - intros k d HI. specialize (HF (rk k)). rewrite (find_named _ _ _ (cg_sorted _ _ _ G) HI) in HF. destruct HF as (i & n' & E1 & E2 & E3 & E4). destruct (sim_search same rk same_ok rk_inj b (dt b) k HB _ E1) as (x & Ex & ->). destruct (sim_get rk _ _ _ (Some i) (RB_mem _ _ _ HB) _ E2) as (n & En & Hn). unfold RN in Hn. subst n'. exists i, n. split; [exact Ex|]. split; [exact En|]. split; [|exact E4]. apply osome_inj. exact E3.
    - intros k HI. specialize (HF (rk k)). destruct (find _ _) as [e|] eqn:Ef.
      + exfalso. apply find_some in Ef as [H1 H2]. apply HI. apply in_named. apply in_map_iff. exists e. split; [lia|exact H1].
      + destruct (sim_search same rk same_ok rk_inj b (dt b) k HB _ HF) as (x & Ex & ->). exact Ex.
  Qed.
  Lemma cg_bounds b T U key : cgood b T U -> exists lo hi, c_lower_bound same b key = Ret lo /\ c_upper_bound same b key = Ret hi /\
    cleast rk (fun k => rk key <= rk k) (map fst (kents U)) lo /\ cleast rk (fun k => rk key < rk k) (map fst (kents U)) hi.
  Proof.
    intros G. assert (HB := cg_RB _ _ _ G). destruct (bounds_view_at (dt b) T (rk key) (cg_def _ _ _ G) (cg_at _ _ _ G) (cg_ord _ _ _ G)) as (lo & hi & E1 & E2 & L1 & L2). rewrite (cg_ents _ _ _ G) in L1, L2.
    destruct (sim_lower same rk same_ok rk_inj b (dt b) key HB _ E1) as (lo' & F1 & R1). destruct (sim_upper same rk same_ok rk_inj b (dt b) key HB _ E2) as (hi' & F2 & R2). unfold RK in R1, R2. subst. exists lo', hi'. split; [exact F1|]. split; [exact F2|].
    assert (Q : forall (P : Z -> Prop) r, least P (map fst (named_entries rk (kents U))) (option_map rk r) -> cleast rk (fun k => P (rk k)) (map fst (kents U)) r).
    { intros P [z|]; cbn [option_map least cleast].
      - intros (A1 & A2 & A3). apply in_named in A1. split; [exact A1|]. split; [exact A2|]. intros k Hk. apply A3. apply in_named. exact Hk.
      - intros A k Hk. apply A. apply in_named. exact Hk. }
    split; [apply (Q (fun z => rk key <= z))|apply (Q (fun z => rk key < z))]; assumption.
  Qed.
  Lemma len_named (l : list (K * option D)) : len (named_entries rk l) = len l.
  Proof. unfold len, named_entries. rewrite map_length. reflexivity. Qed.
  Lemma nodes_kents T U : twin T U -> nodes T = len (kents U).
  Proof. intros H. rewrite <- len_named, <- (twin_ents _ _ H), <- infos_len. unfold entries, len. rewrite map_length. reflexivity. Qed.
  Lemma cg_os b T U : cgood b T U -> sized T ->
    (forall i, 1 <= i <= len (kents U) -> exists n e, c_select b i = Ret (Some n) /\ nth_error (kents U) (Z.to_nat (i - 1)) = Some e /\ cn_key n = Some (fst e) /\ ck_data (cn_inf n) = snd e /\ c_rank same b (fst e) = Ret (Some i)) /\
    (forall i, i < 1 \/ len (kents U) < i -> c_select b i = Raise ValueError) /\
    (forall k, ~ In k (map fst (kents U)) -> c_rank same b k = Ret None).
  Proof.
    intros G HZ. assert (HB := cg_RB _ _ _ G). assert (HN := nodes_kents _ _ (cg_twin _ _ _ G)). destruct (os_view_at (dt b) T (cg_def _ _ _ G) (cg_at _ _ _ G) (cg_num _ _ _ G) (cg_ord _ _ _ G) (cg_ne _ _ _ G) HZ) as (O1 & _ & O3). cbv zeta in O1, O3. rewrite (cg_ents _ _ _ G) in O1, O3. split; [|split].
    - intros i Hi. destruct (O1 i) as (n0 & e0 & _ & E2 & _ & _ & E5); [rewrite len_named; exact Hi|]. unfold named_entries in E2. rewrite nth_error_map in E2. destruct (nth_error (kents U) (Z.to_nat (i - 1))) as [e|] eqn:Ee; [|discriminate]. cbn [option_map] in E2. injection E2 as <-. cbn [fst snd] in E5.
      destruct (select_strict_ok (dt b) T i (cg_def _ _ _ G) (cg_at _ _ _ G) (cg_ord _ _ _ G) HZ (cg_num _ _ _ G) ltac:(lia)) as (n' & x & F1 & F2 & F3). destruct (sim_select rk b (dt b) i HB _ F1) as (o & Eo & Ro). unfold RO in Ro. destruct o as [n|]; [|discriminate]. cbn [option_map] in Ro. injection Ro as ->.
      destruct (sim_rank same rk same_ok rk_inj b (dt b) (fst e) HB _ E5) as (r & Er & ->). exists n, e. split; [exact Eo|]. split; [reflexivity|]. assert (F4 := f_equal (option_map entry) F3). unfold nthi in F4. rewrite <- nth_error_map in F4. fold (entries T) in F4. rewrite (cg_ents _ _ _ G) in F4. unfold named_entries in F4. rewrite nth_error_map, Ee in F4. cbn [option_map] in F4. assert (F5 := f_equal (option_map fst) F4). assert (F6 := f_equal (option_map snd) F4). clear F4. subst x. rewrite dn_inf in F5, F6. cbn [option_map fst snd entry di k_key k_data] in F5, F6.
      assert (HKI : kis (fun _ => True) (di rk (cn_inf n))). { destruct (cg_ord _ _ _ G) as [HF _]. rewrite Forall_forall in HF. apply HF. rewrite <- dn_inf. eapply nth_error_In. exact F3. }
      unfold kis in HKI. cbn [di k_key] in HKI. unfold cn_key. destruct (ck_key (cn_inf n)) as [kn|] eqn:Ekn; cbn [option_map] in *; [|destruct HKI]. injection F5 as F5. apply rk_inj in F5. injection F6 as F6. split; [congruence|]. split; [symmetry; exact F6|exact Er].
    - intros i Hi. unfold c_select. cbv zeta. destruct (Z.ltb_spec (i - 1) 0); [reflexivity|]. rewrite (cg_num _ _ _ G), HN. destruct (Z.leb_spec (len (kents U)) (i - 1)); [reflexivity|lia].
    - intros k Hk. destruct (sim_rank same rk same_ok rk_inj b (dt b) k HB _ (O3 (rk k) ltac:(rewrite in_named; exact Hk))) as (r & Er & ->). exact Er.
  Qed.
  Lemma kin_in (U : ktree) k : kin k U <-> In k (map fst (kents U)).
  Proof. induction U as [|l IHl x d r IHr]; cbn [kin kents map]; [tauto|]. rewrite map_app, in_app_iff. cbn [map fst In]. rewrite IHl, IHr. intuition. Qed.
  (** lowest common ancestors *)
  Lemma cg_lca_2 b T U j k : cgood b T U ->
    (kin j U -> kin k U -> kroot U <> Some j -> kroot U <> Some k -> exists z, c_lca_2 same b j k = Ret (Some z) /\ klca U j k z) /\
    (~ kin j U \/ ~ kin k U -> c_lca_2 same b j k = Raise ValueError).
  Proof.
    intros G. assert (HB := cg_RB _ _ _ G). assert (HW := cg_twin _ _ _ G). destruct (rkey T) as [kr|] eqn:Er.
    2:{ exfalso. assert (X := twin_root _ _ HW). rewrite Er in X. destruct U; cbn in X; [|discriminate]. destruct T; [apply (cg_ne _ _ _ G); reflexivity|destruct HW]. }
    assert (ex : exists l i x r, T = N l i x r /\ k_key x = Some kr). { destruct T as [|l i x r]; [discriminate|]. exists l, i, x, r. auto. }
    destruct (lca_2_ok (dt b) T (rk j) (rk k) kr (cg_def _ _ _ G) (cg_at _ _ _ G) (cg_ord _ _ _ G) ex) as [L1 _]. rewrite !(twin_has _ _ HW) in L1. split.
    - intros Hj Hk Nj Nk. rewrite (twin_root _ _ HW) in Er. destruct (L1 Hj Hk) as (z & E1 & HZ); [intros X; apply Nj; apply osome_inj; cbn; congruence|intros X; apply Nk; apply osome_inj; cbn; congruence|].
      destruct (sim_lca_2 same rk same_ok rk_inj b (dt b) j k HB _ E1) as (r & E2 & R2). unfold RK in R2. destruct r as [r|]; [|discriminate]. cbn in R2. injection R2 as ->. destruct (twin_lca _ _ HW _ _ _ HZ) as (z0 & E3 & HL). apply rk_inj in E3. subst. eauto.
    - intros HN. destruct (cg_finds _ _ _ G) as [F1 F2]. rewrite !kin_in in HN. unfold c_lca_2.
      assert (R : forall x, exists w, c_search same b x = Ret w). { intros x. destruct (search_ok (dt b) T (rk x) (cg_def _ _ _ G) (cg_at _ _ _ G) (cg_ord _ _ _ G) (cg_ne _ _ _ G)) as (c & S & E1 & _). destruct (sim_search same rk same_ok rk_inj b (dt b) x HB _ E1) as (w & Ew & _). eauto. }
      destruct (R j) as (u & Eu). destruct (R k) as (v & Ev). rewrite Eu, Ev. cbn [bind]. destruct HN as [HN|HN]; apply F2 in HN.
      + rewrite Eu in HN. injection HN as ->. reflexivity.
      + rewrite Ev in HN. injection HN as ->. destruct u; reflexivity.
  Qed.
  Hypothesis val_inj : forall x y, val x = val y -> x = y.
  Lemma fresh_hit j : cached (val j) = true -> forall x, fresh_key val (val j) x = oeqb (option_map rk x) (Some (rk j)).
  Proof.
    intros HC [x|]; cbn [fresh_key option_map oeqb]; [|reflexivity]. rewrite HC, andb_true_r. destruct (Z.eqb_spec (val x) (val j)) as [E1|N1].
    - apply val_inj in E1. subst. symmetry. apply Z.eqb_refl.
    - symmetry. apply Z.eqb_neq. intros E1. apply rk_inj in E1. subst. congruence.
  Qed.
  Lemma fresh_miss j : cached (val j) = false -> forall x, fresh_key val (val j) x = (fun _ => false) (option_map rk x).
  Proof. intros HC [x|]; cbn [fresh_key]; [|reflexivity]. rewrite HC, andb_false_r. reflexivity. Qed.
  Lemma cg_lca_1 b T U j k : cgood b T U -> ct_root b = Some 0 -> (forall i, In i (idx T) -> 0 <= i <= 256) -> 
    (kin j U -> kin k U -> cached (val j) = true -> cached (val k) = true -> exists z, klca U j k z /\ c_lca_1 val b j k = Ret (Some (if same z j then k else z))) /\
    (~ kin j U \/ ~ kin k U \/ cached (val j) = false \/ cached (val k) = false -> c_lca_1 val b j k = Raise ValueError).
  Proof.
    intros G R0 HI. assert (HB := cg_RB _ _ _ G). assert (HW := cg_twin _ _ _ G). split.
    - intros Hj Hk Cj Ck. destruct (lca_nt_ok (dt b) T (rk j) (rk k) _ _ (cg_at _ _ _ G) R0 (cg_ord _ _ _ G) HI (fun z => eq_refl) (fun z => eq_refl)) as [L1 _]. rewrite !(twin_has _ _ HW) in L1. destruct (L1 Hj Hk) as (z & E1 & HZ).
      destruct (sim_lca_1 val rk b (dt b) j k _ _ HB (fresh_hit j Cj) (fresh_hit k Ck) _ E1) as (r & E2 & R2). unfold RK in R2. destruct (twin_lca _ _ HW _ _ _ HZ) as (z0 & -> & HL). exists z0. split; [exact HL|]. rewrite E2. do 2 f_equal. apply osome_inj. rewrite <- R2. rewrite <- (rk_eqb same rk same_ok rk_inj z0 j). destruct (same z0 j); reflexivity.
    - intros HN. assert (P : forall x, exists h p, (forall y, fresh_key val (val x) y = h (option_map rk y)) /\ path_nt (dt b) h (ct_root b) = Ret p /\ (~ kin x U \/ cached (val x) = false -> p = [])).
      { intros x. destruct (cached (val x)) eqn:Cx.
        - exists (fun z => oeqb z (Some (rk x))). destruct (path_nt_ok (dt b) T (rk x) (cg_at _ _ _ G) R0 _ (fun z => eq_refl)) as [(c & l & i & y & r & ET & Ey & E1)|(NH & E1)]; (eexists; split; [apply fresh_hit; exact Cx|]; split; [exact E1|]); [|reflexivity]. intros [X|X]; [|discriminate]. exfalso. apply X. apply (twin_has _ _ HW). exists y. split; [|exact Ey]. rewrite ET, infos_plug. cbn [infos]. rewrite !in_app_iff. right. left. right. left. reflexivity.
        - exists (fun _ => false), []. split; [apply fresh_miss; exact Cx|]. split; [|reflexivity]. apply (path_nt_none (dt b) T); [apply (cg_at _ _ _ G)|exact R0|reflexivity]. }
      destruct (P j) as (hj & pj & A1 & A2 & A3). destruct (P k) as (hk & pk & B1 & B2 & B3). apply (lca_1_error val rk b (dt b) j k hj hk pj pk HB A1 B1 A2 B2). intuition.
  Qed.
  (** traversals *)
  Lemma cg_trav b T U size : cgood b T U -> (forall i, In i (idx T) -> 0 <= i < size) -> exists v1 v2 v3 v4 v5,
    c_pre_order (ct_mem b) (ct_root b) = Ret v1 /\ c_in_order (ct_mem b) (ct_root b) = Ret v2 /\ c_post_order (ct_mem b) size (ct_root b) = Ret v3 /\ c_out_order (ct_mem b) (ct_root b) = Ret v4 /\ c_bfs (ct_mem b) (ct_root b) = Ret v5 /\
    map ck_key v1 = map Some (kpre U) /\ cshows v2 (kents U) /\ map ck_key v3 = map Some (kpost U) /\ map ck_key v4 = map Some (rev (map fst (kents U))) /\ map ck_key v5 = map Some (concat (klevels U)).
  Proof.
    intros G HS. assert (HB := cg_RB _ _ _ G). assert (HW := cg_twin _ _ _ G). assert (HM := RB_mem rk _ _ HB). destruct (cg_at _ _ _ G) as (HR & ND & ER). assert (exists i, root T = Some i) as (i & Ei) by (assert (NE := cg_ne _ _ _ G); destruct T; [congruence|cbn; eauto]). rewrite ER, Ei.
    destruct (sim_pre_order rk _ _ _ (Some i) HM _ (pre_order_ok _ T None i HR ND Ei)) as (v1 & F1 & G1). destruct (sim_in_order rk _ _ _ (Some i) HM _ (in_order_ok _ T None i HR ND Ei)) as (v2 & F2 & G2).
    destruct (sim_post_order rk _ _ _ size (Some i) HM _ (post_order_ok _ T None i size HR ND Ei HS)) as (v3 & F3 & G3). destruct (sim_out_order rk _ _ _ (Some i) HM _ (out_order_ok _ T None i HR ND Ei)) as (v4 & F4 & G4). destruct (sim_bfs rk _ _ _ (Some i) HM _ (tree_bfs_ok _ T None i HR ND Ei)) as (v5 & F5 & G5). unfold RV in *.
    exists v1, v2, v3, v4, v5. repeat (split; [eassumption|]). split; [apply keys_back; rewrite <- G1; apply twin_pre; exact HW|]. split; [apply shows_back; rewrite <- G2; apply twin_infos; exact HW|]. split; [apply keys_back; rewrite <- G3; apply twin_post; exact HW|]. split; apply keys_back.
    - rewrite <- G4, map_rev, map_rev. f_equal. assert (X := f_equal (map fst) (twin_infos _ _ HW)). rewrite !map_map in X. cbn [fst] in X. rewrite map_map. exact X.
    - rewrite <- G5. rewrite !concat_map. f_equal. apply twin_levels. exact HW.
  Qed.
End CPP.
