(** Trees up to the fields a class ignores; insertion of a new key whatever the stored sizes. *)
From Coq Require Import Sorting.Sorted.
From Verif Require Import Base TreeModel TreeModel2 TreeSpec TreeProofs TreeRotate TreeBst TreeTrav TreeQuery TreeLca TreeDel TreeHist TreeBalSpec TreeAvl TreeAvl2.

Section Sim.
  Context {D : Type}.
  Notation info := (info D). Notation node := (node D). Notation mem := (mem D). Notation bst := (bst D). Notation bt := (bt D). Notation ctx := (ctx D).
  Definition core (x : info) := (k_key x, k_data x, k_prio x, k_color x).
  Fixpoint sim (T T' : bt) : Prop :=
    match T, T' with
    | E, E => True
    | N l i x r, N l' i' x' r' => i = i' /\ core x = core x' /\ sim l l' /\ sim r r'
    | _, _ => False
    end.
  Fixpoint csim (c c' : ctx) : Prop :=
    match c, c' with
    | Top, Top => True
    | CL c i x r, CL c' i' x' r' => i = i' /\ core x = core x' /\ sim r r' /\ csim c c'
    | CR c l i x, CR c' l' i' x' => i = i' /\ core x = core x' /\ sim l l' /\ csim c c'
    | _, _ => False
    end.
  Lemma sim_refl T : sim T T.
  Proof. induction T; cbn [sim]; auto. Qed.
  Lemma csim_refl c : csim c c.
  Proof. induction c; cbn [csim]; auto using sim_refl. Qed.
  Lemma sim_trans T : forall T' T'', sim T T' -> sim T' T'' -> sim T T''.
  Proof. induction T as [|l IHl i x r IHr]; intros [|l' i' x' r'] [|l'' i'' x'' r'']; cbn [sim]; try tauto. intros (-> & E1 & A1 & B1) (-> & E2 & A2 & B2). split; [reflexivity|]. split; [congruence|]. eauto. Qed.
  Lemma sim_plug (c : ctx) : forall c' (S S' : bt), csim c c' -> sim S S' -> sim (plug c S) (plug c' S').
  Proof. induction c as [|c IH i x r|c IH l i x]; intros [|c' i' x' r'|c' l' i' x'] S S'; cbn [csim plug]; try tauto; intros (-> & E1 & A & B) HS; apply IH; cbn [sim]; auto. Qed.
  Lemma sim_unplug (c : ctx) : forall (S T' : bt), sim (plug c S) T' -> exists c' S', T' = plug c' S' /\ csim c c' /\ sim S S'.
  Proof.
    induction c as [|c IH i x r|c IH l i x]; intros S T' H; cbn [plug] in H; [exists Top, T'; cbn; auto|..]; apply IH in H as (c' & S' & -> & HC & HS); (destruct S' as [|l' i' x' r']; cbn [sim] in HS; [tauto|]); destruct HS as (-> & E1 & A & B).
    - exists (CL c' i' x' r'), l'. cbn [csim plug]. auto 10.
    - exists (CR c' l' i' x'), r'. cbn [csim plug]. auto 10.
  Qed.
  Lemma sim_facts T : forall T', sim T T' -> ents T = ents T' /\ idx T = idx T' /\ root T = root T' /\ nodes T = nodes T'.
  Proof.
    induction T as [|l IHl i x r IHr]; intros [|l' i' x' r']; cbn [sim]; try tauto. intros (-> & E1 & A & B). destruct (IHl _ A) as (A1 & A2 & A3 & A4). destruct (IHr _ B) as (B1 & B2 & B3 & B4).
    rewrite !ents_N. cbn [idx root nodes]. rewrite A1, A2, A4, B1, B2, B4. injection E1 as E1 E2 _ _. unfold ent. rewrite E1, E2. auto.
  Qed.
  Lemma csim_facts (c : ctx) : forall c', csim c c' -> cpar c = cpar c' /\ clen c = clen c' /\ (c = Top <-> c' = Top) /\ cidx c = cidx c'.
  Proof.
    induction c as [|c IH i x r|c IH l i x]; intros [|c' i' x' r'|c' l' i' x']; cbn [csim cpar clen cidx]; try tauto; intros (-> & _ & A & B); destruct (IH _ B) as (B1 & B2 & B3 & B4); apply sim_facts in A as (_ & A & _); rewrite B2, B4, A; repeat split; try discriminate; auto.
  Qed.
  Lemma csim_ents (c c' : ctx) : csim c c' -> map ent (cl c) = map ent (cl c') /\ map ent (cr c) = map ent (cr c').
  Proof.
    revert c'. induction c as [|c IH i x r|c IH l i x]; intros [|c' i' x' r'|c' l' i' x']; cbn [csim cl cr]; try tauto; intros (-> & E1 & A & B); destruct (IH _ B) as (B1 & B2); apply sim_facts in A as (A & _); unfold ents in A; injection E1 as E1 E2 _ _.
    - split; [exact B1|]. cbn [map]. rewrite !map_app, A, B2. unfold ent at 1 3. rewrite E1, E2. reflexivity.
    - split; [|exact B2]. rewrite !map_app, A, B1. cbn [map]. unfold ent at 3 6. rewrite E1, E2. reflexivity.
  Qed.
  (** no node, or none but the root, is marked as root *)
  Definition allf (T : bt) : Prop := Forall (fun x => k_isroot x = false) (infos T).
  Definition tail (T : bt) : Prop := match T with E => True | N l _ _ r => allf l /\ allf r end.
  Fixpoint ctail (c : ctx) : Prop :=
    match c with
    | Top => True
    | CL c _ x r => allf r /\ (c <> Top -> k_isroot x = false) /\ ctail c
    | CR c l _ x => allf l /\ (c <> Top -> k_isroot x = false) /\ ctail c
    end.
  (** the marks on the path to the hole *)
  Fixpoint cflag (c : ctx) : list bool := match c with Top => [] | CL c _ x _ | CR c _ _ x => k_isroot x :: cflag c end.
  Lemma allf_N l i x (r : bt) : allf (N l i x r) <-> k_isroot x = false /\ allf l /\ allf r.
  Proof. unfold allf. cbn [infos]. rewrite Forall_app, Forall_cons_iff. tauto. Qed.
  Lemma tail_plug c : forall S : bt, c <> Top -> (tail (plug c S) <-> ctail c /\ allf S).
  Proof.
    induction c as [|c IH i x r|c IH l i x]; intros S HC; [congruence|..]; cbn [plug ctail].
    - assert (HD : {c = Top} + {c <> Top}) by (destruct c; [left; reflexivity|right; discriminate..]). destruct HD as [-> |HN]; [cbn; tauto|]. rewrite IH by exact HN. rewrite allf_N. tauto.
    - assert (HD : {c = Top} + {c <> Top}) by (destruct c; [left; reflexivity|right; discriminate..]). destruct HD as [-> |HN]; [cbn; tauto|]. rewrite IH by exact HN. rewrite allf_N. tauto.
  Qed.
  (** size fields of any value *)
  Lemma lsize_any (m : mem) T p n : rep m T p -> n_left n = root T -> exists z, left_size m n = Ret z.
  Proof. intros HR En. unfold left_size. rewrite En. destruct T as [|l i x r]; cbn [root]; [eauto|]. destruct HR as (A & _). rewrite (tget_ok _ _ _ A). cbn [bind]. eauto. Qed.
  Lemma rsize_any (m : mem) T p n : rep m T p -> n_right n = root T -> exists z, right_size m n = Ret z.
  Proof. intros HR En. unfold right_size. rewrite En. destruct T as [|l i x r]; cbn [root]; [eauto|]. destruct HR as (A & _). rewrite (tget_ok _ _ _ A). cbn [bind]. eauto. Qed.
  Lemma fix_size_any (b : bst) c l i x r : grown b (plug c (N l i x r)) -> exists b' z, on_mem (fun t => fix_size t (Some i)) b = Ret b' /\ grown b' (plug c (N l i (with_size z x) r)) /\ keepsb b b' /\ b_root b' = b_root b.
  Proof.
    intros G. destruct (grown_sub _ _ _ _ _ _ G) as [RL RR]. assert (ET := tget_at _ _ _ _ _ _ G).
    destruct (lsize_any _ l _ (mknode x (root l) (root r) (cpar c)) RL eq_refl) as (zl & El). destruct (rsize_any _ r _ (mknode x (root l) (root r) (cpar c)) RR eq_refl) as (zr & Er).
    destruct (on_mem_info b c l i x r (with_size (zl + zr + 1)) G) as (b' & E1 & G' & K & R). exists b', (zl + zr + 1). split; [|auto]. rewrite <- E1. unfold on_mem, fix_size. rewrite ET. cbn [bind]. rewrite El. cbn [bind]. rewrite Er. reflexivity.
  Qed.
  Definition size_body (s : mem * option Z) : res (ctl (mem * option Z) mem) :=
    let '(t, walk) := s in match walk with None => Ret (Break t) | Some _ => t <- fix_size t walk ;; n <- tget t walk ;; Ret (Next (t, n_parent n)) end.
  Lemma size_loop (c : ctx) : forall (f : nat) (b : bst) (S : bt), grown b (plug c S) -> (clen c < f)%nat ->
    exists b' c', while_loop f size_body (b_mem b, cpar c) = Ret (b_mem b') /\ grown b' (plug c' S) /\ csim c c' /\ ((ctail c -> ctail c') /\ cflag c' = cflag c) /\ keepsb b b' /\ b' = set_mem b (b_mem b').
  Proof.
    induction c as [|c IH i x r|c IH l i x]; intros f b S G Hf; (destruct f as [|f]; [lia|]); cbn [while_loop size_body cpar].
    - exists b, Top. split; [reflexivity|]. split; [exact G|]. split; [exact I|]. split; [auto|]. split; [apply keepsb_refl|]. destruct b as [[a1 a2 a3] ? ? ? ?]. reflexivity.
    - cbn [plug clen] in *. destruct (fix_size_any b c S i x r G) as (b1 & z & E1 & G1 & K1 & R1). unfold on_mem in E1. destruct (fix_size (b_mem b) (Some i)) as [t| |] eqn:E2; cbn [bind] in E1; [|discriminate..]. injection E1 as E1.
      cbn [bind]. assert (Et : t = b_mem b1) by (rewrite <- E1; reflexivity). rewrite Et. rewrite (tget_at _ _ _ _ _ _ G1). cbn [bind n_parent]. destruct (IH f b1 (N S i (with_size z x) r) G1 ltac:(lia)) as (b2 & c2 & E3 & G3 & C3 & F3 & K3 & M3).
      exists b2, (CL c2 i (with_size z x) r). cbn [plug csim]. split; [exact E3|]. split; [exact G3|]. split; [auto using sim_refl|]. split; [split; [cbn [ctail with_size k_isroot]; assert (HT := proj1 (proj2 (proj2 (csim_facts c c2 C3)))); tauto|cbn [cflag with_size k_isroot]; f_equal; apply F3]|]. split; [eapply keepsb_trans; eassumption|]. rewrite M3 at 1. rewrite <- E1. reflexivity.
    - cbn [plug clen] in *. destruct (fix_size_any b c l i x S G) as (b1 & z & E1 & G1 & K1 & R1). unfold on_mem in E1. destruct (fix_size (b_mem b) (Some i)) as [t| |] eqn:E2; cbn [bind] in E1; [|discriminate..]. injection E1 as E1.
      cbn [bind]. assert (Et : t = b_mem b1) by (rewrite <- E1; reflexivity). rewrite Et. rewrite (tget_at _ _ _ _ _ _ G1). cbn [bind n_parent]. destruct (IH f b1 (N l i (with_size z x) S) G1 ltac:(lia)) as (b2 & c2 & E3 & G3 & C3 & F3 & K3 & M3).
      exists b2, (CR c2 l i (with_size z x)). cbn [plug csim]. split; [exact E3|]. split; [exact G3|]. split; [auto using sim_refl|]. split; [split; [cbn [ctail with_size k_isroot]; assert (HT := proj1 (proj2 (proj2 (csim_facts c c2 C3)))); tauto|cbn [cflag with_size k_isroot]; f_equal; apply F3]|]. split; [eapply keepsb_trans; eassumption|]. rewrite M3 at 1. rewrite <- E1. reflexivity.
  Qed.
  Lemma update_size_any (b : bst) c l i x r : grown b (plug c (N l i x r)) ->
    exists b' c' z, update_size b (Some i) = Ret b' /\ grown b' (plug c' (N l i (if b_os b then with_size z x else x) r)) /\ csim c c' /\ ((ctail c -> ctail c') /\ cflag c' = cflag c) /\ keepsb b b' /\ b_root b' = b_root b.
  Proof.
    intros G. unfold update_size. destruct (b_os b) eqn:Eos; [|exists b, c, 0; auto 10 using csim_refl, keepsb_refl].
    change (while_loop (fuel (b_mem b)) _ _) with (while_loop (fuel (b_mem b)) size_body (b_mem b, Some i)). assert (HF := clen_fuel _ _ _ _ _ _ _ (g_at _ _ G)).
    destruct (fuel (b_mem b)) as [|f]; [lia|]. cbn [while_loop size_body]. destruct (fix_size_any b c l i x r G) as (b1 & z & E1 & G1 & K1 & R1). unfold on_mem in E1. destruct (fix_size (b_mem b) (Some i)) as [t| |] eqn:E2; cbn [bind] in E1; [|discriminate..]. injection E1 as E1.
    cbn [bind]. assert (Et : t = b_mem b1) by (rewrite <- E1; reflexivity). rewrite Et. rewrite (tget_at _ _ _ _ _ _ G1). cbn [bind n_parent]. destruct (size_loop c f b1 _ G1 ltac:(lia)) as (b2 & c2 & E3 & G3 & C3 & F3 & K3 & M3). rewrite E3. cbn [bind].
    exists b2, c2, z. split; [rewrite M3; rewrite <- E1; reflexivity|]. split; [exact G3|]. split; [exact C3|]. split; [exact F3|]. split; [eapply keepsb_trans; eassumption|]. rewrite M3, <- E1. reflexivity.
  Qed.
  (** insertion of a new key *)
  Definition fits_new (key : Z) (d : option D) (x : info) : Prop := core x = core (new_info (Some key) d) /\ k_isroot x = false.
  Lemma insert_any (b : bst) T h key d : default b -> grown b T -> cont T h -> T <> E -> last_data h key = None ->
    exists c c' b' x, T = plug c E /\ c <> Top /\ insert b key d = Ret b' /\ b_comp b' = b_comp b /\ b_os b' = b_os b /\ b_size b' = b_size b + 1 /\ b_root b' = b_root b /\
      csim c c' /\ grown b' (plug c' (N E (b_size b) x E)) /\ fits_new key d x /\ ((ctail c -> ctail c') /\ cflag c' = cflag c) /\
      cont (plug c' (N E (b_size b) x E)) (h ++ [(key, d)]) /\ search_parent b' key = Ret (Some (b_size b), cpar c') /\ search b' key = Ret (Some (b_size b)).
  Proof.
    intros HD G C HE HL. destruct (search_ok b T key HD (g_at _ _ G) (proj1 C) HE) as (c0 & S0 & _ & _ & K0).
    assert (ES : S0 = E). { destruct K0 as (ET & _ & [-> | (l & i & x & r & -> & Ek)]); [reflexivity|]. exfalso. assert (X : last_data h key = Some (k_data x)); [|congruence]. apply (proj2 C). unfold ents. rewrite ET, infos_plug. cbn [infos]. rewrite !map_app, !in_app_iff. right. left. right. left. unfold ent. rewrite Ek. reflexivity. }
    subst S0. destruct (insert_pre b T key d c0 HD G (proj1 C) HE K0) as (c & b1 & K & NT & E1 & G1 & N4 & N5 & N6 & N7).
    destruct (update_size_any b1 c E (b_size b) (new_info (Some key) d) E G1) as (b2 & c2 & z & E2 & G2 & C2 & F2 & K2 & R2). set (x := if b_os b1 then with_size z (new_info (Some key) d) else new_info (Some key) d) in *.
    assert (FX : fits_new key d x) by (unfold x, fits_new, core; destruct (b_os b1); cbn; auto).
    assert (EX : ent x = (Some key, d)) by (destruct FX as [FX _]; injection FX as FX1 FX2 _ _; unfold ent; rewrite FX1, FX2; reflexivity).
    assert (CX : cont (plug c2 (N E (b_size b) x E)) (h ++ [(key, d)])).
    { apply (insert_cont T _ h key d c E C K). cbn [kl kr app]. rewrite app_nil_r. unfold ents. rewrite infos_plug. cbn [infos app]. rewrite map_app. cbn [map]. rewrite EX. destruct (csim_ents c c2 C2) as [-> ->]. reflexivity. }
    exists c, c2, b2, x. split; [apply K|]. split; [exact NT|]. split; [rewrite E1; exact E2|]. destruct K2 as (K2 & K3 & K4 & K5). split; [congruence|]. split; [congruence|]. split; [congruence|]. split; [congruence|]. split; [exact C2|]. split; [exact G2|]. split; [exact FX|]. split; [exact F2|]. split; [exact CX|].
    assert (NE2 : plug c2 (N E (b_size b) x E) <> E) by (apply plug_E; discriminate).
    destruct (search_ok b2 _ key ltac:(unfold default in *; congruence) (g_at _ _ G2) (proj1 CX) NE2) as (c3 & S3 & E3 & E4 & K').
    assert (ND := grown_neq _ _ G2). destruct K' as (ET3 & P3 & S3').
    assert (HX : k_key x = Some key) by (injection EX as EX _; exact EX).
    assert (HI : In x (infos (plug c2 (N E (b_size b) x E)))) by (rewrite infos_plug, !in_app_iff; right; left; left; reflexivity).
    destruct S3' as [-> | (l3 & i3 & x3 & r3 & -> & Ek3)].
    - exfalso. assert (AB := absent key _ c3 (conj ET3 (conj P3 (or_introl eq_refl)))). rewrite Forall_forall in AB. specialize (AB x HI). unfold kis in AB. rewrite HX in AB. congruence.
    - assert (i3 = b_size b). { apply (key_index _ i3 x3 (b_size b) x key (proj1 CX)); [|apply inT_plug; left; auto|exact Ek3|exact HX]. rewrite ET3. apply inT_plug. left; auto. }
      subst i3. assert (C1 := sub_cell _ _ _ _ _ _ _ (g_at _ _ G2)). assert (G3 := G2). rewrite ET3 in G3. assert (C3 := sub_cell _ _ _ _ _ _ _ (g_at _ _ G3)). rewrite C1 in C3. injection C3 as _ _ _ EP. cbn [root] in *. rewrite EP. auto.
  Qed.
End Sim.
