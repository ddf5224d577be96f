(** RedBlackTree: insertion of a new key keeps the red-black invariants. *)
From Coq Require Import Sorting.Sorted.
From Verif Require Import Base TreeModel TreeModel2 TreeSpec TreeProofs TreeRotate TreeBst TreeTrav TreeQuery TreeLca TreeDel TreeHist TreeBalSpec TreeAvl TreeAvl2 TreeSim TreeTreap TreeSplay.

Section Rb.
  Context {D : Type}.
  Notation info := (info D). Notation node := (node D). Notation mem := (mem D). Notation bst := (bst D). Notation bt := (bt D). Notation ctx := (ctx D).
  Fixpoint rb (T : bt) (n : Z) : Prop :=
    match T with
    | E => n = 0
    | N l _ x r => (k_color x = Some 0 /\ rb l (n - 1) /\ rb r (n - 1)) \/ (k_color x = Some 1 /\ rb l n /\ rb r n /\ black l /\ black r)
    end.
  (** the parent of the hole is black *)
  Definition cblack (c : ctx) : Prop := match c with Top => False | CL _ _ x _ | CR _ _ _ x => k_color x = Some 0 end.
  Fixpoint crb (c : ctx) (n : Z) : Prop :=
    match c with
    | Top => True
    | CL c _ x r => rb r n /\ ((k_color x = Some 0 /\ crb c (n + 1)) \/ (k_color x = Some 1 /\ black r /\ cblack c /\ crb c n))
    | CR c l _ x => rb l n /\ ((k_color x = Some 0 /\ crb c (n + 1)) \/ (k_color x = Some 1 /\ black l /\ cblack c /\ crb c n))
    end.
  Lemma rb_plug (c : ctx) : forall (S : bt) n, crb c n -> rb S n -> (black S \/ cblack c) -> exists m, rb (plug c S) m /\ (black S \/ c <> Top -> black (plug c S) \/ True).
  Proof.
    induction c as [|c IH i x r|c IH l i x]; intros S n; cbn [crb plug].
    - intros _ H _. exists n. auto.
    - intros (A & [(B & C)|(B & C & F & G)]) HS HB; cbn [cblack] in HB.
      + destruct (IH (N S i x r) (n + 1)) as (m & M & _); [exact C|left; replace (n + 1 - 1) with n by lia; auto|left; exact B|]. exists m. auto.
      + destruct (IH (N S i x r) n) as (m & M & _); [exact G|right; destruct HB as [HB|HB]; [|congruence]; auto 10|right; exact F|]. exists m. auto.
    - intros (A & [(B & C)|(B & C & F & G)]) HS HB; cbn [cblack] in HB.
      + destruct (IH (N l i x S) (n + 1)) as (m & M & _); [exact C|left; replace (n + 1 - 1) with n by lia; auto|left; exact B|]. exists m. auto.
      + destruct (IH (N l i x S) n) as (m & M & _); [exact G|right; destruct HB as [HB|HB]; [|congruence]; auto 10|right; exact F|]. exists m. auto.
  Qed.
  Lemma rb_unplug (c : ctx) : forall (S : bt) n, rb (plug c S) n -> (black (plug c S)) -> exists m, crb c m /\ rb S m /\ (black S \/ cblack c).
  Proof.
    induction c as [|c IH i x r|c IH l i x]; intros S n H HB; cbn [plug] in *; [exists n; cbn; auto|..]; destruct (IH _ _ H HB) as (m & HC & HR & HK); cbn [rb black] in HR, HK; cbn [crb cblack]; destruct HR as [(A & B & C)|(A & B & C & F & G)].
    - exists (m - 1). replace (m - 1 + 1) with m by lia. auto.
    - exists m. split; [split; [exact C|right]|auto]. split; [exact A|]. split; [exact G|]. split; [|exact HC]. destruct HK as [HK|HK]; [congruence|exact HK].
    - exists (m - 1). replace (m - 1 + 1) with m by lia. auto.
    - exists m. split; [split; [exact B|right]|auto]. split; [exact A|]. split; [exact F|]. split; [|exact HC]. destruct HK as [HK|HK]; [congruence|exact HK].
  Qed.
  Lemma core_color (x y : info) : core x = core y -> k_color x = k_color y.
  Proof. intros H. injection H as _ _ _ H. exact H. Qed.
  Lemma black_sim (T T' : bt) : sim T T' -> black T -> black T'.
  Proof. destruct T as [|l i x r], T' as [|l' i' x' r']; cbn [sim black]; try tauto. intros (_ & H & _). rewrite (core_color _ _ H). auto. Qed.
  Lemma rb_sim T : forall T' n, sim T T' -> rb T n -> rb T' n.
  Proof.
    induction T as [|l IHl i x r IHr]; intros [|l' i' x' r'] n; cbn [sim rb]; try tauto. intros (_ & H & A & B). rewrite <- (core_color _ _ H). intros [(P & Q & R)|(P & Q & R & U & V)]; [left|right]; split; try exact P.
    - split; [apply (IHl _ _ A Q)|apply (IHr _ _ B R)].
    - split; [apply (IHl _ _ A Q)|]. split; [apply (IHr _ _ B R)|]. split; [apply (black_sim _ _ A U)|apply (black_sim _ _ B V)].
  Qed.
  Lemma cblack_sim (c c' : ctx) : csim c c' -> cblack c -> cblack c'.
  Proof. destruct c, c'; cbn [csim cblack]; try tauto; intros (_ & H & _); rewrite (core_color _ _ H); auto. Qed.
  Lemma crb_sim (c : ctx) : forall c' n, csim c c' -> crb c n -> crb c' n.
  Proof.
    induction c as [|c IH i x r|c IH l i x]; intros [|c' i' x' r'|c' l' i' x'] n; cbn [csim crb]; try tauto; intros (_ & H & A & B) (P & Q); rewrite <- (core_color _ _ H); (split; [apply (rb_sim _ _ _ A P)|]); (destruct Q as [(Q1 & Q2)|(Q1 & Q2 & Q3 & Q4)]; [left; auto|right]); (split; [exact Q1|]); (split; [apply (black_sim _ _ A Q2)|]); (split; [apply (cblack_sim _ _ B Q3)|auto]).
  Qed.
  Lemma rb_color (T : bt) n : rb T n -> T = E \/ exists l i x r, T = N l i x r /\ (k_color x = Some 0 \/ k_color x = Some 1).
  Proof. destruct T as [|l i x r]; cbn [rb]; [auto|]. intros H. right. exists l, i, x, r. split; [reflexivity|]. tauto. Qed.
  Definition rootok (T : bt) : Prop := match T with E => False | N l _ x r => exists m, rb l m /\ rb r m /\ (k_color x = Some 0 \/ k_color x = Some 1) end.
  Lemma rb_rootok (T : bt) n : T <> E -> rb T n -> rootok T.
  Proof. destruct T as [|l i x r]; cbn [rb rootok]; [congruence|]. intros _ [(A & B & C)|(A & B & C & _)]; eauto. Qed.
  Lemma plug_rootok (c : ctx) l i x r n : crb c n -> rb (N l i x r) n -> (k_color x = Some 0 \/ cblack c) -> rootok (plug c (N l i x r)).
  Proof. intros H1 H2 H3. destruct (rb_plug c (N l i x r) n H1 H2 H3) as (m & M & _). eapply rb_rootok; [apply plug_E; discriminate|exact M]. Qed.

  (** the root carries the mark *)
  Definition marked (T : bt) : Prop := match T with E => False | N _ _ x _ => k_isroot x = true end.
  (** elementary steps *)
  Lemma paint_ok (b : bst) c l i x r v : grown b (plug c (N l i x r)) -> exists b', paint v (Some i) b = Ret b' /\ grown b' (plug c (N l i (with_color v x) r)) /\ keepsb b b'.
  Proof. intros G. destruct (on_mem_info b c l i x r (with_color v) G) as (b' & E1 & G1 & K1 & _). exists b'. auto. Qed.
  Lemma flag_ok (b : bst) l i x r v : grown b (N l i x r) -> exists b', flag_root v b = Ret b' /\ grown b' (N l i (with_isroot v x) r) /\ keepsb b b'.
  Proof. intros G. destruct (on_mem_info b Top l i x r (with_isroot v) G) as (b' & E1 & G1 & K1 & _). exists b'. split; [|auto]. rewrite <- E1. unfold flag_root. destruct (g_at _ _ G) as (_ & _ & ->). reflexivity. Qed.
  Lemma unflag_ok (b : bst) c (S : bt) : grown b (plug c S) -> S <> E -> tail (plug c S) ->
    exists b' c' S', flag_root false b = Ret b' /\ grown b' (plug c' S') /\ csim c c' /\ sim S S' /\ keepsb b b' /\ allf (plug c' S').
  Proof.
    intros G HS HT. destruct (plug c S) as [|l i x r] eqn:EP; [exfalso; apply (plug_E c S HS EP)|]. destruct (flag_ok b l i x r false G) as (b' & E1 & G1 & K1).
    assert (SM : sim (plug c S) (N l i (with_isroot false x) r)) by (rewrite EP; cbn [sim]; auto using sim_refl). destruct (sim_unplug c S _ SM) as (c' & S' & EQ & C1 & S1). exists b', c', S'. split; [exact E1|]. split; [rewrite <- EQ; exact G1|]. split; [exact C1|]. split; [exact S1|]. split; [exact K1|].
    rewrite <- EQ. cbn [tail] in HT. apply allf_N. cbn [with_isroot k_isroot]. tauto.
  Qed.
  Lemma reflag_ok (b : bst) c (S : bt) : grown b (plug c S) -> S <> E -> allf (plug c S) ->
    exists b' c' S', flag_root true b = Ret b' /\ grown b' (plug c' S') /\ csim c c' /\ sim S S' /\ keepsb b b' /\ tail (plug c' S') /\ marked (plug c' S').
  Proof.
    intros G HS HT. destruct (plug c S) as [|l i x r] eqn:EP; [exfalso; apply (plug_E c S HS EP)|]. destruct (flag_ok b l i x r true G) as (b' & E1 & G1 & K1).
    assert (SM : sim (plug c S) (N l i (with_isroot true x) r)) by (rewrite EP; cbn [sim]; auto using sim_refl). destruct (sim_unplug c S _ SM) as (c' & S' & EQ & C1 & S1). exists b', c', S'. split; [exact E1|]. split; [rewrite <- EQ; exact G1|]. split; [exact C1|]. split; [exact S1|]. split; [exact K1|].
    rewrite <- EQ. cbn [tail marked with_isroot k_isroot]. apply allf_N in HT. tauto.
  Qed.
  Lemma is_red_at (b : bst) c l i x r v : grown b (plug c (N l i x r)) -> k_color x = Some v -> is_red (b_mem b) (Some i) = Ret (v =? 1).
  Proof. intros G H. unfold is_red. rewrite (tget_at _ _ _ _ _ _ G). cbn [bind]. unfold n_color. cbn [n_inf]. rewrite H. reflexivity. Qed.
  Lemma parent_at (b : bst) c l i x r : grown b (plug c (N l i x r)) -> get_parent (b_mem b) (Some i) = Ret (cpar c).
  Proof. intros G. unfold get_parent. rewrite (tget_at _ _ _ _ _ _ G). reflexivity. Qed.
  Lemma onleft_l (b : bst) c l i x r j y q : grown b (plug (CL c j y q) (N l i x r)) -> is_onleft (b_mem b) (Some i) = Ret true.
  Proof. intros G. unfold is_onleft. rewrite (parent_at _ _ _ _ _ _ G). cbn [bind cpar]. cbn [plug] in G. rewrite (tget_at _ _ _ _ _ _ G). cbn [bind n_left root]. rewrite oeqb_yes. reflexivity. Qed.
  Lemma onleft_r (b : bst) c l i x r j y q : grown b (plug (CR c q j y) (N l i x r)) -> is_onleft (b_mem b) (Some i) = Ret false.
  Proof. intros G. unfold is_onleft. rewrite (parent_at _ _ _ _ _ _ G). cbn [bind cpar]. cbn [plug] in G. rewrite (tget_at _ _ _ _ _ _ G). cbn [bind n_left]. assert (ND := grown_neq _ _ G). rewrite oeqb_no by (intros X; apply root_In in X; dj ND). reflexivity. Qed.
  Lemma sibling_l (b : bst) c l i x r j y q : grown b (plug (CL c j y q) (N l i x r)) -> get_sibling (b_mem b) (Some i) = Ret (root q).
  Proof. intros G. unfold get_sibling. rewrite (parent_at _ _ _ _ _ _ G). cbn [bind cpar]. cbn [plug] in G. rewrite (tget_at _ _ _ _ _ _ G). cbn [bind n_left n_right root]. rewrite oeqb_yes. reflexivity. Qed.
  Lemma sibling_r (b : bst) c l i x r j y q : grown b (plug (CR c q j y) (N l i x r)) -> get_sibling (b_mem b) (Some i) = Ret (root q).
  Proof. intros G. unfold get_sibling. rewrite (parent_at _ _ _ _ _ _ G). cbn [bind cpar]. cbn [plug] in G. rewrite (tget_at _ _ _ _ _ _ G). cbn [bind n_left n_right]. assert (ND := grown_neq _ _ G). rewrite oeqb_no by (intros X; symmetry in X; apply root_In in X; dj ND). reflexivity. Qed.

  (** a black uncle *)
  Lemma allf_plug (c : ctx) (S : bt) : allf (plug c S) <-> Forall (fun x => k_isroot x = false) (cl c) /\ allf S /\ Forall (fun x => k_isroot x = false) (cr c).
  Proof. unfold allf. rewrite infos_plug, !Forall_app. tauto. Qed.
  Definition finish (b : bst) (i g : option Z) : res (bst * option Z) := b <- paint 0 i b ;; b <- paint 1 g b ;; b <- flag_root true b ;; Ret (b, i).
  Lemma finish_r (b : bst) c A i x bl g z br : grown b (plug c (N A i x (N bl g z br))) -> allf (plug c (N A i x (N bl g z br))) ->
    exists b' c' l' x' r', finish b (Some i) (Some g) = Ret (b', Some i) /\ grown b' (plug c' (N l' i x' r')) /\ csim c c' /\ sim (N A i (with_color 0 x) (N bl g (with_color 1 z) br)) (N l' i x' r') /\ (tail (plug c' (N l' i x' r')) /\ marked (plug c' (N l' i x' r'))) /\ keepsb b b' /\
      ents (plug c' (N l' i x' r')) = ents (plug c (N A i x (N bl g z br))).
  Proof.
    intros G HA. unfold finish. destruct (paint_ok b c _ i x _ 0 G) as (b1 & E1 & G1 & K1). rewrite E1. cbn [bind]. destruct (paint_ok b1 (CR c A i (with_color 0 x)) bl g z br 1 G1) as (b2 & E2 & G2 & K2). rewrite E2. cbn [bind plug] in *.
    destruct (reflag_ok b2 c _ G2) as (b3 & c' & S' & E3 & G3 & C3 & S3 & K3 & T3); [discriminate|rewrite allf_plug, !allf_N in *; exact HA|]. rewrite E3. cbn [bind]. destruct S' as [|l' i' x' r']; [destruct S3|]. assert (i = i') by (apply S3). subst i'.
    exists b3, c', l', x', r'. split; [reflexivity|]. split; [exact G3|]. split; [exact C3|]. split; [exact S3|]. split; [exact T3|]. split; [eapply keepsb_trans; [exact K1|eapply keepsb_trans; eassumption]|].
    assert (X := proj1 (sim_facts _ _ (sim_plug _ _ _ _ C3 S3))). rewrite <- X. apply ents_plug. rewrite !ents_N. reflexivity.
  Qed.
  Lemma finish_l (b : bst) c A i x bl g z br : grown b (plug c (N (N bl g z br) i x A)) -> allf (plug c (N (N bl g z br) i x A)) ->
    exists b' c' l' x' r', finish b (Some i) (Some g) = Ret (b', Some i) /\ grown b' (plug c' (N l' i x' r')) /\ csim c c' /\ sim (N (N bl g (with_color 1 z) br) i (with_color 0 x) A) (N l' i x' r') /\ (tail (plug c' (N l' i x' r')) /\ marked (plug c' (N l' i x' r'))) /\ keepsb b b' /\
      ents (plug c' (N l' i x' r')) = ents (plug c (N (N bl g z br) i x A)).
  Proof.
    intros G HA. unfold finish. destruct (paint_ok b c _ i x _ 0 G) as (b1 & E1 & G1 & K1). rewrite E1. cbn [bind]. destruct (paint_ok b1 (CL c i (with_color 0 x) A) bl g z br 1 G1) as (b2 & E2 & G2 & K2). rewrite E2. cbn [bind plug] in *.
    destruct (reflag_ok b2 c _ G2) as (b3 & c' & S' & E3 & G3 & C3 & S3 & K3 & T3); [discriminate|rewrite allf_plug, !allf_N in *; exact HA|]. rewrite E3. cbn [bind]. destruct S' as [|l' i' x' r']; [destruct S3|]. assert (i = i') by (apply S3). subst i'.
    exists b3, c', l', x', r'. split; [reflexivity|]. split; [exact G3|]. split; [exact C3|]. split; [exact S3|]. split; [exact T3|]. split; [eapply keepsb_trans; [exact K1|eapply keepsb_trans; eassumption]|].
    assert (X := proj1 (sim_facts _ _ (sim_plug _ _ _ _ C3 S3))). rewrite <- X. apply ents_plug. rewrite !ents_N. reflexivity.
  Qed.
  Ltac shape S := destruct S as [|? ? ? ?]; cbn [sim] in *; [tauto|].
  Ltac ents_eq := rewrite ?ents_N; repeat (rewrite <- ?app_assoc; cbn [app]); reflexivity.
  Lemma rotate_insert_ok (b : bst) (c0 : ctx) l i x r p y q c1 m :
    grown b (plug c0 (N l i x r)) -> tail (plug c0 (N l i x r)) -> (c0 = CL c1 p y q \/ c0 = CR c1 q p y) -> k_color x = Some 1 -> k_color y = Some 1 -> rb l m -> rb r m -> black l -> black r -> crb c0 m ->
    match c1 with Top => False | CL _ _ _ u | CR _ u _ _ => black u end ->
    exists b' c' l' i' x' r' m', rotate_insert b (Some i) (Some p) = Ret (b', Some i') /\ grown b' (plug c' (N l' i' x' r')) /\ k_color x' = Some 0 /\ crb c' m' /\ rb (N l' i' x' r') m' /\ tail (plug c' (N l' i' x' r')) /\
      ents (plug c' (N l' i' x' r')) = ents (plug c0 (N l i x r)) /\ keepsb b b'.
  Proof.
    intros G HT HC0 Hx Hy Hl Hr Bl Br HC BU.
    assert (CORE : forall (a e : info), core a = core e -> k_color a = k_color e) by (intros a e; apply core_color).
    destruct c1 as [|c g z u|c u g z]; [tauto|..]; destruct HC0 as [-> | ->]; cbn [plug crb cblack] in *; (destruct HC as (Rq & [(X & _)|(_ & Bq & Bz & Ru & [(_ & HC)|(X & _)])]); [congruence| |congruence]).
    - (* left left *)
      destruct (unflag_ok b c _ G) as (b1 & c1 & S1 & E1 & G1 & C1 & S1s & K1 & A1); [discriminate|exact HT|]. destruct S1 as [|S1 g' z' u']; cbn [sim] in S1s; [tauto|]. destruct S1 as [|S1 p' y' q']; cbn [sim] in S1s; [tauto|]. destruct S1 as [|l1 i' x1 r1]; cbn [sim] in S1s; [tauto|]. destruct S1s as (<- & Cz & (<- & Cy & (<- & Cx & Sl & Sr) & Sq) & Su).
      assert (EN1 : ents (plug c1 (N (N (N l1 i x1 r1) p y' q') g z' u')) = ents (plug c (N (N (N l i x r) p y q) g z u))) by (symmetry; apply sim_facts; apply sim_plug; [exact C1|cbn [sim]; auto 10]).
      unfold rotate_insert. rewrite E1. cbn [bind]. rewrite (onleft_l b1 c1 _ p y' q' g z' u' G1). cbn [bind negb]. rewrite (onleft_l b1 (CL c1 g z' u') l1 i x1 r1 p y' q' G1). cbn [bind negb]. rewrite (parent_at b1 (CL c1 g z' u') _ p y' q' G1). cbn [bind cpar].
      destruct (rot_right b1 c1 (N l1 i x1 r1) p y' q' g z' u' G1) as (b2 & E2 & G2 & K2). rewrite E2. cbn [bind].
      destruct (finish_r b2 c1 (N l1 i x1 r1) p y' q' g z' u' G2) as (b3 & c3 & l3 & x3 & r3 & E3 & G3 & C3 & S3 & T3 & K3 & EN3); [rewrite allf_plug, !allf_N in *; tauto|]. unfold finish in E3. rewrite E3.
      exists b3, c3, l3, p, x3, r3, (m + 1). split; [reflexivity|]. split; [exact G3|].
      assert (CX := proj1 (proj2 S3)). apply CORE in CX. cbn [with_color k_color] in CX. split; [auto|]. split; [apply (crb_sim _ _ _ C3), (crb_sim _ _ _ C1), HC|]. split.
      { apply (rb_sim _ _ _ S3). cbn [rb with_color k_color black]. replace (m + 1 - 1) with m by lia. left. split; [reflexivity|]. rewrite <- (CORE _ _ Cx). split; right; repeat split; try assumption; eauto using rb_sim, black_sim. }
      split; [exact (proj1 T3)|]. split; [|eapply keepsb_trans; [exact K1|eapply keepsb_trans; eassumption]]. rewrite EN3, <- EN1. apply ents_plug. ents_eq.
    - (* left right *)
      destruct (unflag_ok b c _ G) as (b1 & c1 & S1 & E1 & G1 & C1 & S1s & K1 & A1); [discriminate|exact HT|]. destruct S1 as [|S1 g' z' u']; cbn [sim] in S1s; [tauto|]. destruct S1 as [|q' p' y' S1]; cbn [sim] in S1s; [tauto|]. destruct S1 as [|l1 i' x1 r1]; cbn [sim] in S1s; [tauto|]. destruct S1s as (<- & Cz & (<- & Cy & Sq & (<- & Cx & Sl & Sr)) & Su).
      assert (EN1 : ents (plug c1 (N (N q' p y' (N l1 i x1 r1)) g z' u')) = ents (plug c (N (N q p y (N l i x r)) g z u))) by (symmetry; apply sim_facts; apply sim_plug; [exact C1|cbn [sim]; auto 10]).
      unfold rotate_insert. rewrite E1. cbn [bind]. rewrite (onleft_l b1 c1 _ p y' _ g z' u' G1). cbn [bind negb]. rewrite (onleft_r b1 (CL c1 g z' u') l1 i x1 r1 p y' q' G1). cbn [bind negb].
      destruct (rot_left b1 (CL c1 g z' u') q' i x1 l1 p y' r1 G1) as (b2 & E2 & G2 & K2). rewrite E2. cbn [bind plug] in *. rewrite (parent_at b2 (CL (CL c1 g z' u') i x1 r1) _ p y' l1 G2). cbn [bind cpar]. rewrite (parent_at b2 (CL c1 g z' u') _ i x1 r1 G2). cbn [bind cpar].
      destruct (rot_right b2 c1 _ i x1 r1 g z' u' G2) as (b4 & E4 & G4 & K4). rewrite E4. cbn [bind].
      destruct (finish_r b4 c1 _ i x1 r1 g z' u' G4) as (b3 & c3 & l3 & x3 & r3 & E3 & G3 & C3 & S3 & T3 & K3 & EN3); [rewrite allf_plug, !allf_N in *; tauto|]. unfold finish in E3. rewrite E3.
      exists b3, c3, l3, i, x3, r3, (m + 1). split; [reflexivity|]. split; [exact G3|].
      assert (CX := proj1 (proj2 S3)). apply CORE in CX. cbn [with_color k_color] in CX. split; [auto|]. split; [apply (crb_sim _ _ _ C3), (crb_sim _ _ _ C1), HC|]. split.
      { apply (rb_sim _ _ _ S3). cbn [rb with_color k_color black]. replace (m + 1 - 1) with m by lia. left. split; [reflexivity|]. rewrite <- (CORE _ _ Cy). split; right; repeat split; try assumption; eauto using rb_sim, black_sim. }
      split; [exact (proj1 T3)|]. split; [|eapply keepsb_trans; [exact K1|eapply keepsb_trans; [exact K2|eapply keepsb_trans; eassumption]]]. rewrite EN3, <- EN1. apply ents_plug. ents_eq.
    - (* right left *)
      destruct (unflag_ok b c _ G) as (b1 & c1 & S1 & E1 & G1 & C1 & S1s & K1 & A1); [discriminate|exact HT|]. destruct S1 as [|u' g' z' S1]; cbn [sim] in S1s; [tauto|]. destruct S1 as [|S1 p' y' q']; cbn [sim] in S1s; [tauto|]. destruct S1 as [|l1 i' x1 r1]; cbn [sim] in S1s; [tauto|]. destruct S1s as (<- & Cz & Su & (<- & Cy & (<- & Cx & Sl & Sr) & Sq)).
      assert (EN1 : ents (plug c1 (N u' g z' (N (N l1 i x1 r1) p y' q'))) = ents (plug c (N u g z (N (N l i x r) p y q)))) by (symmetry; apply sim_facts; apply sim_plug; [exact C1|cbn [sim]; auto 10]).
      unfold rotate_insert. rewrite E1. cbn [bind]. rewrite (onleft_r b1 c1 _ p y' q' g z' u' G1). cbn [bind negb]. rewrite (onleft_l b1 (CR c1 u' g z') l1 i x1 r1 p y' q' G1). cbn [bind negb].
      destruct (rot_right b1 (CR c1 u' g z') l1 i x1 r1 p y' q' G1) as (b2 & E2 & G2 & K2). rewrite E2. cbn [bind plug] in *. rewrite (parent_at b2 (CR (CR c1 u' g z') l1 i x1) _ p y' q' G2). cbn [bind cpar]. rewrite (parent_at b2 (CR c1 u' g z') _ i x1 _ G2). cbn [bind cpar].
      destruct (rot_left b2 c1 u' i x1 l1 g z' _ G2) as (b4 & E4 & G4 & K4). rewrite E4. cbn [bind].
      destruct (finish_l b4 c1 _ i x1 u' g z' l1 G4) as (b3 & c3 & l3 & x3 & r3 & E3 & G3 & C3 & S3 & T3 & K3 & EN3); [rewrite allf_plug, !allf_N in *; tauto|]. unfold finish in E3. rewrite E3.
      exists b3, c3, l3, i, x3, r3, (m + 1). split; [reflexivity|]. split; [exact G3|].
      assert (CX := proj1 (proj2 S3)). apply CORE in CX. cbn [with_color k_color] in CX. split; [auto|]. split; [apply (crb_sim _ _ _ C3), (crb_sim _ _ _ C1), HC|]. split.
      { apply (rb_sim _ _ _ S3). cbn [rb with_color k_color black]. replace (m + 1 - 1) with m by lia. left. split; [reflexivity|]. rewrite <- (CORE _ _ Cy). split; right; repeat split; try assumption; eauto using rb_sim, black_sim. }
      split; [exact (proj1 T3)|]. split; [|eapply keepsb_trans; [exact K1|eapply keepsb_trans; [exact K2|eapply keepsb_trans; eassumption]]]. rewrite EN3, <- EN1. apply ents_plug. ents_eq.
    - (* right right *)
      destruct (unflag_ok b c _ G) as (b1 & c1 & S1 & E1 & G1 & C1 & S1s & K1 & A1); [discriminate|exact HT|]. destruct S1 as [|u' g' z' S1]; cbn [sim] in S1s; [tauto|]. destruct S1 as [|q' p' y' S1]; cbn [sim] in S1s; [tauto|]. destruct S1 as [|l1 i' x1 r1]; cbn [sim] in S1s; [tauto|]. destruct S1s as (<- & Cz & Su & (<- & Cy & Sq & (<- & Cx & Sl & Sr))).
      assert (EN1 : ents (plug c1 (N u' g z' (N q' p y' (N l1 i x1 r1)))) = ents (plug c (N u g z (N q p y (N l i x r))))) by (symmetry; apply sim_facts; apply sim_plug; [exact C1|cbn [sim]; auto 10]).
      unfold rotate_insert. rewrite E1. cbn [bind]. rewrite (onleft_r b1 c1 _ p y' _ g z' u' G1). cbn [bind negb]. rewrite (onleft_r b1 (CR c1 u' g z') l1 i x1 r1 p y' q' G1). cbn [bind negb]. rewrite (parent_at b1 (CR c1 u' g z') q' p y' _ G1). cbn [bind cpar].
      destruct (rot_left b1 c1 u' p y' q' g z' (N l1 i x1 r1) G1) as (b2 & E2 & G2 & K2). rewrite E2. cbn [bind].
      destruct (finish_l b2 c1 (N l1 i x1 r1) p y' u' g z' q' G2) as (b3 & c3 & l3 & x3 & r3 & E3 & G3 & C3 & S3 & T3 & K3 & EN3); [rewrite allf_plug, !allf_N in *; tauto|]. unfold finish in E3. rewrite E3.
      exists b3, c3, l3, p, x3, r3, (m + 1). split; [reflexivity|]. split; [exact G3|].
      assert (CX := proj1 (proj2 S3)). apply CORE in CX. cbn [with_color k_color] in CX. split; [auto|]. split; [apply (crb_sim _ _ _ C3), (crb_sim _ _ _ C1), HC|]. split.
      { apply (rb_sim _ _ _ S3). cbn [rb with_color k_color black]. replace (m + 1 - 1) with m by lia. left. split; [reflexivity|]. rewrite <- (CORE _ _ Cx). split; right; repeat split; try assumption; eauto using rb_sim, black_sim. }
      split; [exact (proj1 T3)|]. split; [|eapply keepsb_trans; [exact K1|eapply keepsb_trans; eassumption]]. rewrite EN3, <- EN1. apply ents_plug. ents_eq.
  Qed.

  (** a red uncle: painted, the grandparent becomes the node in question *)
  Lemma recolor_l (b : bst) c pl p y pr g z ul u w ur : grown b (plug c (N (N pl p y pr) g z (N ul u w ur))) ->
    exists b', (b <- paint 0 (Some u) b ;; b <- paint 0 (Some p) b ;; b <- paint 1 (Some g) b ;; Ret (b, Some g)) = Ret (b', Some g) /\
      grown b' (plug c (N (N pl p (with_color 0 y) pr) g (with_color 1 z) (N ul u (with_color 0 w) ur))) /\ keepsb b b'.
  Proof.
    intros G. destruct (paint_ok b (CR c (N pl p y pr) g z) ul u w ur 0 G) as (b1 & E1 & G1 & K1). rewrite E1. cbn [bind plug] in *. destruct (paint_ok b1 (CL c g z (N ul u (with_color 0 w) ur)) pl p y pr 0 G1) as (b2 & E2 & G2 & K2). rewrite E2. cbn [bind plug] in *.
    destruct (paint_ok b2 c _ g z _ 1 G2) as (b3 & E3 & G3 & K3). rewrite E3. cbn [bind]. exists b3. split; [reflexivity|]. split; [exact G3|]. eapply keepsb_trans; [exact K1|eapply keepsb_trans; eassumption].
  Qed.
  Lemma recolor_r (b : bst) c pl p y pr g z ul u w ur : grown b (plug c (N (N ul u w ur) g z (N pl p y pr))) ->
    exists b', (b <- paint 0 (Some u) b ;; b <- paint 0 (Some p) b ;; b <- paint 1 (Some g) b ;; Ret (b, Some g)) = Ret (b', Some g) /\
      grown b' (plug c (N (N ul u (with_color 0 w) ur) g (with_color 1 z) (N pl p (with_color 0 y) pr))) /\ keepsb b b'.
  Proof.
    intros G. destruct (paint_ok b (CL c g z (N pl p y pr)) ul u w ur 0 G) as (b1 & E1 & G1 & K1). rewrite E1. cbn [bind plug] in *. destruct (paint_ok b1 (CR c (N ul u (with_color 0 w) ur) g z) pl p y pr 0 G1) as (b2 & E2 & G2 & K2). rewrite E2. cbn [bind plug] in *.
    destruct (paint_ok b2 c _ g z _ 1 G2) as (b3 & E3 & G3 & K3). rewrite E3. cbn [bind]. exists b3. split; [reflexivity|]. split; [exact G3|]. eapply keepsb_trans; [exact K1|eapply keepsb_trans; eassumption].
  Qed.
  (** the state at the head of the loop: a red node in question, or a black one and all is well *)
  Definition spot (b0 : bst) EN (n : nat) (st : bst * option Z) : Prop :=
    exists c l i x r m, snd st = Some i /\ grown (fst st) (plug c (N l i x r)) /\ tail (plug c (N l i x r)) /\ ents (plug c (N l i x r)) = EN /\ keepsb b0 (fst st) /\ crb c m /\
      ((k_color x = Some 1 /\ rb l m /\ rb r m /\ black l /\ black r /\ n = S (clen c)) \/ (k_color x = Some 0 /\ rb (N l i x r) m /\ n = 0%nat)).
  Definition fixed (b0 : bst) EN (b' : bst) : Prop := exists T', grown b' T' /\ rootok T' /\ tail T' /\ ents T' = EN /\ keepsb b0 b'.
  Lemma cpar_color (c : ctx) m : c <> Top -> crb c m -> exists c1 p y q, cpar c = Some p /\ (c = CL c1 p y q \/ c = CR c1 q p y) /\ (k_color y = Some 0 \/ k_color y = Some 1).
  Proof. destruct c as [|c p y q|c q p y]; [congruence|..]; cbn [crb cpar]; intros _ (_ & H); exists c, p, y, q; tauto. Qed.
  Lemma after_recolor (b0 b1 b2 : bst) EN n c l g z r m : (clen c < n)%nat -> grown b2 (plug c (N l g z r)) -> tail (plug c (N l g z r)) -> ents (plug c (N l g z r)) = EN -> keepsb b0 b1 -> keepsb b1 b2 -> crb c (m + 1) -> k_color z = Some 1 -> rb l (m + 1) -> rb r (m + 1) -> black l -> black r ->
    wp (n <- tget (b_mem b2) (Some g) ;; if k_isroot (n_inf n) then Ret (Break b2) else Ret (Next (b2, Some g))) (fun r => match r with Next s' => exists n', (n' < S n)%nat /\ spot b0 EN n' s' | Break b' => fixed b0 EN b' end).
  Proof.
    intros L G T EN1 K0 K1 HC Hz Hl Hr Bl Br. rewrite (tget_at _ _ _ _ _ _ G). cbn [bind n_inf]. assert (K2 : keepsb b0 b2) by (eapply keepsb_trans; eassumption). destruct (k_isroot z) eqn:Ez; cbn [wp].
    - assert (c = Top) as ->. { assert (HD : {c = Top} + {c <> Top}) by (destruct c; [left; reflexivity|right; discriminate..]). destruct HD as [HD|HD]; [exact HD|]. apply tail_plug in T as [_ T]; [|exact HD]. apply allf_N in T. destruct T as [T _]. congruence. }
      exists (N l g z r). cbn [plug] in *. split; [exact G|]. split; [cbn [rootok]; eauto|]. auto.
    - exists (S (clen c)). split; [lia|]. exists c, l, g, z, r, (m + 1). cbn [fst snd]. split; [reflexivity|]. split; [exact G|]. split; [exact T|]. split; [exact EN1|]. split; [exact K2|]. split; [exact HC|]. left. auto 10.
  Qed.
  Lemma tail_color (c : ctx) l i (x : info) r l' x' r' : k_isroot x = k_isroot x' -> (allf l <-> allf l') -> (allf r <-> allf r') -> tail (plug c (N l i x r)) -> tail (plug c (N l' i x' r')).
  Proof.
    intros H1 H2 H3. assert (HD : {c = Top} + {c <> Top}) by (destruct c; [left; reflexivity|right; discriminate..]). destruct HD as [-> |HD]; [cbn [plug tail]; tauto|]. rewrite !(tail_plug _ _ HD), !allf_N. rewrite H1. tauto.
  Qed.
  Lemma fix_insert_ok (b : bst) c l i x r m : grown b (plug c (N l i x r)) -> tail (plug c (N l i x r)) -> crb c m -> k_color x = Some 1 -> rb l m -> rb r m -> black l -> black r ->
    exists b' T' n, fix_insert b (Some i) = Ret b' /\ grown b' T' /\ rb T' n /\ black T' /\ tail T' /\ ents T' = ents (plug c (N l i x r)) /\ keepsb b b'.
  Proof.
    intros G HT HC Hx Hl Hr Bl Br. remember (ents (plug c (N l i x r))) as EN eqn:EEN. symmetry in EEN. unfold fix_insert.
    match goal with |- context [while_loop ?f ?bd ?s0] => assert (W : wp (while_loop f bd s0) (fixed b EN)) end.
    { eapply (wp_while_g (spot b EN)) with (n := S (clen c)).
      - clear c l i x r m G HT HC Hx Hl Hr Bl Br EEN. intros n [b1 ni] (c & l & i & x & r & m & Ei & G & HT & EN1 & K & HC & CASE). cbn [fst snd] in *. subst ni. rewrite (parent_at _ _ _ _ _ _ G). cbn [bind].
        assert (HD : {c = Top} + {c <> Top}) by (destruct c; [left; reflexivity|right; discriminate..]). destruct HD as [-> |HD].
        { cbn [cpar wp]. exists (N l i x r). cbn [plug] in *. split; [exact G|]. split; [|auto]. destruct CASE as [(A & B & C & _)|(A & B & _)]; [cbn; eauto|eapply rb_rootok; [discriminate|exact B]]. }
        destruct (cpar_color c m HD HC) as (c1 & p & y & q & -> & EC & HY).
        assert (RP : exists v, is_red (b_mem b1) (Some p) = Ret (v =? 1) /\ k_color y = Some v).
        { destruct HY as [HY|HY]; rewrite HY; [exists 0|exists 1]; (split; [|reflexivity]); destruct EC as [-> | ->]; cbn [plug] in G; eapply is_red_at; eassumption. }
        destruct RP as (v & RP & Hv). rewrite RP. cbn [bind].
        destruct CASE as [(Hx & Hl & Hr & Bl & Br & ->)|(Hx & Hb & ->)].
        2: { assert ((if v =? 1 then is_red (b_mem b1) (Some i) else Ret false) = Ret false) as -> by (rewrite (is_red_at _ _ _ _ _ _ _ G Hx); destruct (v =? 1); reflexivity). cbn [bind wp]. exists (plug c (N l i x r)). split; [exact G|]. split; [apply (plug_rootok _ _ _ _ _ _ HC Hb (or_introl Hx))|]. auto. }
        rewrite (is_red_at _ _ _ _ _ _ _ G Hx). rewrite Hv in HY. destruct HY as [HY|HY]; injection HY as ->; cbn [Z.eqb Pos.eqb].
        { cbn [bind wp]. exists (plug c (N l i x r)). split; [exact G|]. split; [|auto]. apply (plug_rootok _ _ _ _ _ m HC); [cbn [rb]; right; auto|right]. destruct EC as [-> | ->]; exact Hv. }
        cbn [bind].
        assert (C2 : exists c2 g z u, (c1 = CL c2 g z u \/ c1 = CR c2 u g z) /\ k_color z = Some 0 /\ crb c2 (m + 1) /\ rb u m /\ rb q m /\ black q).
        { destruct EC as [-> | ->]; cbn [crb] in HC; (destruct HC as (Rq & [(X & _)|(_ & Bq & Bz & HC)]); [congruence|]); (destruct c1 as [|c2 g z u|c2 u g z]; cbn [cblack crb] in *; [tauto|..]); destruct HC as (Ru & [(Hz & HC)|(X & _)]); try congruence; exists c2, g, z, u; auto 10. }
        destruct C2 as (c2 & g & z & u & EC1 & Hz & HC2 & Ru & Rq & Bq).
        assert (PG : exists S, plug c (N l i x r) = plug c1 S /\ exists pl pr, S = N pl p y pr /\ rb (N pl p (with_color 0 y) pr) (m + 1) /\ (allf pl /\ allf pr <-> allf pl /\ allf pr)).
        { destruct EC as [-> | ->]; cbn [plug]; eexists; (split; [reflexivity|]); eexists; eexists; (split; [reflexivity|]); (split; [|tauto]); cbn [rb with_color k_color]; left; replace (m + 1 - 1) with m by lia; (split; [reflexivity|]); split; try assumption; cbn [rb]; right; auto. }
        destruct PG as (S & ES & pl & pr & -> & RPn & _). rewrite ES in *.
        assert (EP : get_parent (b_mem b1) (Some p) = Ret (Some g)) by (destruct EC1 as [-> | ->]; rewrite (parent_at _ _ _ _ _ _ G); reflexivity).
        assert (EU : get_sibling (b_mem b1) (Some p) = Ret (root u)) by (destruct EC1 as [-> | ->]; [apply (sibling_l _ _ _ _ _ _ _ _ _ G)|apply (sibling_r _ _ _ _ _ _ _ _ _ G)]).
        rewrite EP, EU. cbn [bind].
        assert (BLK : black u -> wp (' (b0, node_idx) <- rotate_insert b1 (Some i) (Some p) ;; n <- tget (b_mem b0) node_idx ;; (if k_isroot (n_inf n) then Ret (Break b0) else Ret (Next (b0, node_idx)))) (fun r => match r with Next s' => exists n', (n' < Datatypes.S (clen c))%nat /\ spot b EN n' s' | Break b' => fixed b EN b' end)).
        { intros BU. rewrite <- ES in *. destruct (rotate_insert_ok b1 c l i x r p y q c1 m G HT EC Hx Hv Hl Hr Bl Br HC) as (b2 & c3 & l3 & i3 & x3 & r3 & m3 & E2 & G2 & Hx3 & HC3 & HB3 & HT3 & EN3 & K3).
          { destruct EC1 as [-> | ->]; exact BU. }
          rewrite E2. cbn [bind]. rewrite (tget_at _ _ _ _ _ _ G2). cbn [bind n_inf]. assert (K4 : keepsb b b2) by (eapply keepsb_trans; eassumption). destruct (k_isroot x3); cbn [wp].
          - exists (plug c3 (N l3 i3 x3 r3)). split; [exact G2|]. split; [apply (plug_rootok _ _ _ _ _ _ HC3 HB3 (or_introl Hx3))|]. split; [exact HT3|]. split; [congruence|exact K4].
          - exists 0%nat. split; [lia|]. exists c3, l3, i3, x3, r3, m3. cbn [fst snd]. split; [reflexivity|]. split; [exact G2|]. split; [exact HT3|]. split; [congruence|]. split; [exact K4|]. split; [exact HC3|]. right. auto. }
        destruct u as [|ul ui w ur].
        { cbn [root bind]. apply BLK. exact I. }
        assert (UC : exists uv, k_color w = Some uv /\ (uv = 0 \/ uv = 1)) by (cbn [rb] in Ru; destruct Ru as [(A & _)|(A & _)]; rewrite A; eauto). destruct UC as (uv & Hw & UV).
        assert (RU : is_red (b_mem b1) (Some ui) = Ret (uv =? 1)) by (destruct EC1 as [-> | ->]; cbn [plug] in G; [apply (is_red_at b1 (CR c2 (N pl p y pr) g z) ul ui w ur uv G Hw)|apply (is_red_at b1 (CL c2 g z (N pl p y pr)) ul ui w ur uv G Hw)]).
        cbn [root]. rewrite RU. cbn [bind]. destruct UV as [-> | ->]; cbn [Z.eqb Pos.eqb].
        { apply BLK. exact Hw. }
        assert (RU0 : rb (N ul ui (with_color 0 w) ur) (m + 1)).
        { cbn [rb with_color k_color] in *. left. replace (m + 1 - 1) with m by lia. destruct Ru as [(A & _)|(_ & A & B & _)]; [congruence|auto]. }
        destruct EC1 as [-> | ->]; cbn [plug] in *.
        + destruct (recolor_l b1 c2 pl p y pr g z ul ui w ur G) as (b2 & E2 & G2 & K2). rewrite E2. cbn [bind]. eapply (after_recolor b b1 b2 EN (clen c) c2 _ g _ _ m); try eassumption; try reflexivity.
          * destruct EC as [-> | ->]; cbn [clen]; lia.
          * eapply tail_color; [|..|exact HT]; rewrite ?allf_N; cbn [with_color k_isroot]; tauto.
          * rewrite <- EN1. apply ents_plug. rewrite !ents_N. reflexivity.
        + destruct (recolor_r b1 c2 pl p y pr g z ul ui w ur G) as (b2 & E2 & G2 & K2). rewrite E2. cbn [bind]. eapply (after_recolor b b1 b2 EN (clen c) c2 _ g _ _ m); try eassumption; try reflexivity.
          * destruct EC as [-> | ->]; cbn [clen]; lia.
          * eapply tail_color; [|..|exact HT]; rewrite ?allf_N; cbn [with_color k_isroot]; tauto.
          * rewrite <- EN1. apply ents_plug. rewrite !ents_N. reflexivity.
      - exists c, l, i, x, r, m. cbn [fst snd]. split; [reflexivity|]. split; [exact G|]. split; [exact HT|]. split; [exact EEN|]. split; [apply keepsb_refl|]. split; [exact HC|]. left. auto 10.
      - assert (HF := clen_fuel _ _ _ _ _ _ _ (g_at _ _ G)). lia. }
    apply wp_ex in W as (b1 & E1 & T1 & G1 & RO & TT & EN1 & K1). rewrite E1. cbn [bind]. destruct T1 as [|l1 i1 x1 r1]; [destruct RO|]. destruct RO as (m1 & R1 & R2 & _).
    destruct (paint_ok b1 Top l1 i1 x1 r1 0 G1) as (b2 & E2 & G2 & K2). exists b2, (N l1 i1 (with_color 0 x1) r1), (m1 + 1). destruct (g_at _ _ G1) as (_ & _ & HR). rewrite HR. split; [exact E2|]. split; [exact G2|]. cbn [rb black with_color k_color].
    split; [left; replace (m1 + 1 - 1) with m1 by lia; auto|]. split; [reflexivity|]. split; [exact TT|]. split; [rewrite <- EN1, !ents_N; reflexivity|]. eapply keepsb_trans; eassumption.
  Qed.

  Lemma black_plug (c : ctx) : c <> Top -> forall S S' : bt, black (plug c S) -> black (plug c S').
  Proof.
    induction c as [|c IH i x r|c IH l i x]; intros NT S S'; [congruence|..]; cbn [plug]; assert (HD : {c = Top} + {c <> Top}) by (destruct c; [left; reflexivity|right; discriminate..]); (destruct HD as [-> |HD]; [cbn [plug black]; auto|apply (IH HD)]).
  Qed.
  Record rgood (b : bst) (T : bt) (h : list (Z * option D)) : Prop := { r_def : default b; r_grown : grown b T; r_cont : cont T h; r_ne : T <> E; r_tail : tail T; r_black : black T; r_rb : exists n, rb T n }.
  Lemma rb_insert_ok (b : bst) T h k d : rgood b T h -> last_data h k = None -> exists b' T', rb_insert b k d = Ret b' /\ rgood b' T' (h ++ [(k, d)]) /\ b_os b' = b_os b.
  Proof.
    intros [RD RG RC RN RT RB (n & RR)] HL. destruct (insert_any b T h k d RD RG RC RN HL) as (c & c' & b1 & x & ET & NT & E1 & B1 & B2 & B3 & B4 & CS & G1 & FX & CT & C1 & _ & ES). unfold rb_insert. rewrite E1. cbn [bind]. rewrite ES. cbn [bind]. rewrite (tget_at _ _ _ _ _ _ G1). cbn [bind].
    destruct (on_mem_info b1 c' E (b_size b) x E (fun _ => mkinfo (Some k) d 0 1 false None (Some 1)) G1) as (b2 & E2 & G2 & K2 & _).
    change (fun t => tmod t (Some (b_size b)) (rb_node k d)) with (fun t : mem => tmod t (Some (b_size b)) (set_inf (fun _ => mkinfo (Some k) d 0 1 false None (Some 1)))). rewrite E2. cbn [bind n_inf]. destruct FX as [FX ->].
    subst T. destruct (rb_unplug c E n RR RB) as (m & HC & HE & _). cbn [rb] in HE. subst m. apply (crb_sim _ _ _ CS) in HC.
    assert (NT' : c' <> Top) by (intros X; apply NT; apply (csim_facts c c' CS); exact X).
    assert (TT : tail (plug c' (N E (b_size b) (mkinfo (Some k) d 0 1 false None (Some 1)) E))). { apply tail_plug; [exact NT'|]. apply tail_plug in RT as [RT _]; [|exact NT]. split; [apply CT; exact RT|]. apply allf_N. split; [reflexivity|]. split; constructor. }
    assert (EN : ents (plug c' (N E (b_size b) (mkinfo (Some k) d 0 1 false None (Some 1)) E)) = ents (plug c' (N E (b_size b) x E))). { apply ents_plug. rewrite !ents_N. unfold ent. injection FX as FX1 FX2 _ _. rewrite FX1, FX2. reflexivity. }
    destruct K2 as (K21 & K22 & K23 & K24).
    rewrite (parent_at _ _ _ _ _ _ G2). cbn [bind]. destruct (cpar_color c' 0 NT' HC) as (c1 & p & y & q & Ep & EC & HY). rewrite Ep.
    assert (RP : exists v, is_red (b_mem b2) (Some p) = Ret (v =? 1) /\ k_color y = Some v).
    { destruct HY as [HY|HY]; rewrite HY; [exists 0|exists 1]; (split; [|reflexivity]); destruct EC as [-> | ->]; cbn [plug] in G2; eapply is_red_at; eassumption. }
    destruct RP as (v & -> & Hv). cbn [bind]. destruct (v =? 1) eqn:Ev.
    - destruct (fix_insert_ok b2 c' E (b_size b) _ E 0 G2 TT HC eq_refl eq_refl eq_refl I I) as (b3 & T3 & n3 & E3 & G3 & R3 & BK3 & T3t & EN3 & (K31 & K32 & K33 & K34)). exists b3, T3. split; [exact E3|]. split; [|congruence].
      split; [unfold default in *; congruence|exact G3|eapply cont_ents; [|exact C1]; congruence| |exact T3t|exact BK3|eauto].
      intros X. rewrite X in G3. assert (GN := g_nodes _ _ G3). assert (GB := g_nodes _ _ RG). pose proof (nodes_nonneg (plug c E)). cbn [nodes] in GN. lia.
    - exists b2, (plug c' (N E (b_size b) (mkinfo (Some k) d 0 1 false None (Some 1)) E)). split; [reflexivity|]. split; [|congruence].
      assert (CB : cblack c'). { destruct HY as [HY|HY]; [destruct EC as [-> | ->]; exact HY|]. rewrite Hv in HY. injection HY as ->. discriminate. }
      split; [unfold default in *; congruence|exact G2|eapply cont_ents; [|exact C1]; congruence|apply plug_E; discriminate|exact TT| |].
      + assert (HS : sim (plug c E) (plug c' E)) by (apply sim_plug; [exact CS|exact I]). apply (black_sim _ _ HS) in RB. apply (black_plug c' NT' _ _ RB).
      + destruct (rb_plug c' (N E (b_size b) (mkinfo (Some k) d 0 1 false None (Some 1)) E) 0 HC) as (m & M & _); [cbn; auto 10|right; exact CB|]. exists m. exact M.
  Qed.
  Lemma rb_first os k (d : option D) : rb_insert (fresh os) k d = Ret (one os (mkinfo (Some k) d 0 1 true None (Some 0))).
  Proof. unfold rb_insert. rewrite fresh_insert. cbn [bind]. unfold search, search_loop. cbn. rewrite Z.eqb_refl. reflexivity. Qed.
  Lemma rb_build_ok os h : h <> [] -> NoDup (map fst h) -> exists b T, build_with rb_insert None os h = Ret b /\ rgood b T h /\ b_os b = os.
  Proof.
    intros NE ND. destruct h as [|[k d] h]; [congruence|]. unfold build_with. change (bst_new _ _ None os) with (Ret (fresh (D := D) os)). cbn [bind insert_with]. rewrite rb_first. cbn [bind].
    destruct (new_all rb_insert (fun b T h => rgood b T h /\ b_os b = os)) with (h := h) (b := one os (mkinfo (Some k) d 0 1 true None (Some 0))) (T := N E 0 (mkinfo (Some k) d 0 1 true None (Some 0)) E) (h0 := [(k, d)]) as (b & T & E1 & G & O); [| |exact ND|exists b, T; auto].
    - intros b T h1 k1 d1 (H1 & H2) HL. destruct (rb_insert_ok b T h1 k1 d1 H1 HL) as (b' & T' & E1 & G1 & O1). exists b', T'. split; [exact E1|]. split; [exact G1|congruence].
    - split; [|reflexivity]. split; [reflexivity|apply one_grown|apply one_cont; reflexivity|discriminate|split; constructor|reflexivity|]. exists 1. cbn. left. auto.
  Qed.
  Lemma rb_spec T : forall n, rb T n -> no_red_red T /\ black_count T n.
  Proof.
    induction T as [|l IHl i x r IHr]; intros n; cbn [rb no_red_red black_count]; [auto|]. cbn [black red]. intros [(A & B & C)|(A & B & C & F & G)]; rewrite A; cbn [Z.eqb Pos.eqb]; destruct (IHl _ B), (IHr _ C); auto 10.
  Qed.
End Rb.
