(** Contents of a RedBlackTree and of a CartesianTree after any history, with keys inserted again. *)
From Coq Require Import Sorting.Sorted.
From Verif Require Import Base TreeModel TreeModel2 TreeSpec TreeProofs TreeRotate TreeBst TreeTrav TreeQuery TreeLca TreeDel TreeHist TreeBalSpec TreeAvl TreeAvl2 TreeSim TreeTreap TreeSplay TreeRb.

Section Reins.
  Context {D : Type}.
  Notation info := (info D). Notation node := (node D). Notation mem := (mem D). Notation bst := (bst D). Notation bt := (bt D). Notation ctx := (ctx D).
  Lemma insert_again (b : bst) T h key d : default b -> grown b T -> cont T h -> T <> E -> last_data h key <> None ->
    exists c l i x r b', T = plug c (N l i x r) /\ insert b key d = Ret b' /\ b_comp b' = b_comp b /\ b_os b' = b_os b /\ k_key x = Some key /\
      grown b' (plug c (N l i (with_data d x) r)) /\ cont (plug c (N l i (with_data d x) r)) (h ++ [(key, d)]) /\ search b' key = Ret (Some i).
  Proof.
    intros HD G C HE HL. destruct (search_ok b T key HD (g_at _ _ G) (proj1 C) HE) as (c & S & E1 & _ & K). assert (K' := K). destruct K' as (ET & P & HS). destruct HS as [-> |(l & i & x & r & -> & Ek)].
    - exfalso. destruct (last_data h key) as [d0|] eqn:EL; [|congruence]. apply (proj2 C) in EL. assert (AB := absent key _ c K). rewrite Forall_forall in AB. unfold ents in EL. apply in_map_iff in EL as (y & Ey & Hy). apply AB in Hy. unfold kis in Hy. injection Ey as Ey _. rewrite Ey in Hy. congruence.
    - destruct (insert_old b T key d c l i x r HD G (proj1 C) HE E1 ET) as (m & E2 & G2). assert (C2 : cont (plug c (N l i (with_data d x) r)) (h ++ [(key, d)])).
      { apply (insert_cont T _ h key d c _ C K). cbn [kl kr]. unfold ents. rewrite infos_plug. cbn [infos]. rewrite !map_app. cbn [map]. change (ent (with_data d x)) with (k_key x, d). rewrite Ek. rewrite <- !app_assoc. reflexivity. }
      exists c, l, i, x, r, (set_mem b m). split; [exact ET|]. split; [exact E2|]. do 2 (split; [reflexivity|]). split; [exact Ek|]. split; [exact G2|]. split; [exact C2|].
      assert (NE2 : plug c (N l i (with_data d x) r) <> E) by (apply plug_E; discriminate). destruct (search_ok (set_mem b m) _ key HD (g_at _ _ G2) (proj1 C2) NE2) as (c3 & S3 & E3 & _ & ET3 & P3 & S3'). rewrite E3. f_equal.
      assert (HI : In (with_data d x) (infos (plug c (N l i (with_data d x) r)))) by (rewrite infos_plug, !in_app_iff; right; left; cbn [infos]; rewrite in_app_iff; right; left; reflexivity).
      destruct S3' as [-> | (l3 & i3 & x3 & r3 & -> & Ek3)].
      + exfalso. assert (AB := absent key _ c3 (conj ET3 (conj P3 (or_introl eq_refl)))). rewrite Forall_forall in AB. specialize (AB _ HI). unfold kis in AB. cbn [with_data k_key] in AB. rewrite Ek in AB. congruence.
      + cbn [root]. f_equal. apply (key_index _ i3 x3 i (with_data d x) key (proj1 C2)); [rewrite ET3; apply inT_plug; left; auto|apply inT_plug; left; auto|exact Ek3|exact Ek].
  Qed.

  (** ** colours of any pattern *)
  Definition tint (x : info) : Prop := k_color x = Some 0 \/ k_color x = Some 1.
  Definition tinted (T : bt) : Prop := Forall tint (infos T).
  Lemma tinted_plug (c : ctx) (S : bt) : tinted (plug c S) <-> Forall tint (cl c) /\ tinted S /\ Forall tint (cr c).
  Proof. unfold tinted. rewrite infos_plug, !Forall_app. tauto. Qed.
  Lemma tinted_N l i x (r : bt) : tinted (N l i x r) <-> tint x /\ tinted l /\ tinted r.
  Proof. unfold tinted. cbn [infos]. rewrite Forall_app, Forall_cons_iff. tauto. Qed.
  Lemma tinted_sim T : forall T' : bt, sim T T' -> tinted T -> tinted T'.
  Proof. induction T as [|l IHl i x r IHr]; intros [|l' i' x' r']; cbn [sim]; try tauto. rewrite !tinted_N. intros (_ & Ex & Sl & Sr) (A & B & C). unfold tint in *. rewrite <- (core_color _ _ Ex). eauto. Qed.
  Definition tailm (T : bt) : Prop := tail T /\ marked T.
  Lemma marked_plug (c : ctx) l i (x : info) r l' i' x' r' : k_isroot x = k_isroot x' -> marked (plug c (N l i x r)) -> marked (plug c (N l' i' x' r')).
  Proof.
    revert l i x r l' i' x' r'. induction c as [|c IH j y q|c IH q j y]; intros l i x r l' i' x' r' H; cbn [plug]; [cbn [marked]; congruence|..]; apply IH; reflexivity.
  Qed.
  Lemma tailm_color (c : ctx) l i (x : info) r l' x' r' : k_isroot x = k_isroot x' -> (allf l <-> allf l') -> (allf r <-> allf r') -> tailm (plug c (N l i x r)) -> tailm (plug c (N l' i x' r')).
  Proof. intros H1 H2 H3 [A B]. split; [eapply tail_color; eassumption|eapply marked_plug; eassumption]. Qed.
  Lemma rotate_insert_w (b : bst) (c0 : ctx) l i x r p y q c1 :
    grown b (plug c0 (N l i x r)) -> tailm (plug c0 (N l i x r)) -> tinted (plug c0 (N l i x r)) -> (c0 = CL c1 p y q \/ c0 = CR c1 q p y) -> c1 <> Top ->
    exists b' c' l' i' x' r', rotate_insert b (Some i) (Some p) = Ret (b', Some i') /\ grown b' (plug c' (N l' i' x' r')) /\ k_color x' = Some 0 /\ tailm (plug c' (N l' i' x' r')) /\ tinted (plug c' (N l' i' x' r')) /\
      (black (plug c0 (N l i x r)) -> black (plug c' (N l' i' x' r'))) /\ ents (plug c' (N l' i' x' r')) = ents (plug c0 (N l i x r)) /\ keepsb b b'.
  Proof.
    intros G HT HI HC0 NT.
    assert (OUT : forall c S c1 S1 b1 A i3 x3 B bl g z br (left : bool) b2 b3 c3 l3 y3 r3, csim c c1 -> sim S S1 -> tinted (plug c S) -> (black (plug c S) -> True) -> keepsb b b1 -> keepsb b1 b2 -> keepsb b2 b3 -> csim c1 c3 ->
       sim (if left then N (N bl g (with_color 1 z) br) i3 (with_color 0 x3) A else N B i3 (with_color 0 x3) (N bl g (with_color 1 z) br)) (N l3 i3 y3 r3) ->
       (tinted S1 -> tinted (if left then N (N bl g z br) i3 x3 A else N B i3 x3 (N bl g z br))) ->
       grown b3 (plug c3 (N l3 i3 y3 r3)) -> tailm (plug c3 (N l3 i3 y3 r3)) ->
       k_color y3 = Some 0 /\ tinted (plug c3 (N l3 i3 y3 r3)) /\ (black (plug c S) -> black (plug c3 (N l3 i3 y3 r3))) /\ keepsb b b3).
    { clear. intros c S c1 S1 b1 A i3 x3 B bl g z br left b2 b3 c3 l3 y3 r3 C1 S1s HI _ K1 K2 K3 C3 S3 HT1 G3 T3.
      assert (CX : k_color y3 = Some 0). { destruct left; assert (X := proj1 (proj2 S3)); apply core_color in X; cbn [with_color k_color] in X; auto. }
      split; [exact CX|].
      assert (CC : csim c c3). { clear - C1 C3. revert c1 c3 C1 C3. induction c as [|c IH i x r|c IH l i x]; intros [|c' i' x' r'|c' l' i' x'] [|c'' i'' x'' r''|c'' l'' i'' x'']; cbn [csim]; try tauto; intros (-> & E1 & A1 & B1) (-> & E2 & A2 & B2); (split; [reflexivity|]); (split; [congruence|]); (split; [eapply sim_trans; eassumption|eauto]). }
      split; [|split].
      - apply tinted_plug in HI as (H1 & H2 & H3). apply tinted_plug. assert (HP : tinted (plug c E)) by (apply tinted_plug; split; [exact H1|]; split; [constructor|exact H3]).
        assert (HP3 : tinted (plug c3 E)) by (eapply tinted_sim; [apply sim_plug; [exact CC|apply sim_refl]|exact HP]). apply tinted_plug in HP3 as (P1 & _ & P3). split; [exact P1|]. split; [|exact P3].
        eapply tinted_sim; [exact S3|]. apply (tinted_sim _ _ S1s) in H2. apply HT1 in H2. destruct left; rewrite !tinted_N in *; unfold tint in *; cbn [with_color k_color]; tauto.
      - intros HB. assert (HD : {c = Top} + {c <> Top}) by (destruct c; [left; reflexivity|right; discriminate..]). destruct HD as [-> |HD].
        + destruct c3; cbn [csim] in CC; [exact CX|tauto..].
        + assert (HS : sim (plug c S) (plug c3 S)) by (apply sim_plug; [exact CC|apply sim_refl]). apply (black_sim _ _ HS) in HB. eapply black_plug; [|exact HB]. intros X. apply HD. apply (csim_facts c c3 CC). exact X.
      - eapply keepsb_trans; [exact K1|eapply keepsb_trans; eassumption]. }
    destruct c1 as [|c g z u|c u g z]; [congruence|..]; destruct HC0 as [-> | ->]; cbn [plug] in *.
    - (* left left *)
      destruct (unflag_ok b c _ G) as (b1 & c1 & S1 & E1 & G1 & C1 & S1s & K1 & A1); [discriminate|exact (proj1 HT)|]. assert (S1S := S1s). destruct S1 as [|S1 g' z' u']; cbn [sim] in S1s; [tauto|]. destruct S1 as [|S1 p' y' q']; cbn [sim] in S1s; [tauto|]. destruct S1 as [|l1 i' x1 r1]; cbn [sim] in S1s; [tauto|]. destruct S1s as (<- & Cz & (<- & Cy & (<- & Cx & Sl & Sr) & Sq) & Su).
      assert (EN1 := proj1 (sim_facts _ _ (sim_plug _ _ _ _ C1 S1S))).
      unfold rotate_insert. rewrite E1. cbn [bind]. rewrite (onleft_l b1 c1 _ p y' q' g z' u' G1). cbn [bind negb]. rewrite (onleft_l b1 (CL c1 g z' u') l1 i x1 r1 p y' q' G1). cbn [bind negb]. rewrite (parent_at b1 (CL c1 g z' u') _ p y' q' G1). cbn [bind cpar].
      destruct (rot_right b1 c1 (N l1 i x1 r1) p y' q' g z' u' G1) as (b2 & E2 & G2 & K2). rewrite E2. cbn [bind].
      destruct (finish_r b2 c1 (N l1 i x1 r1) p y' q' g z' u' G2) as (b3 & c3 & l3 & x3 & r3 & E3 & G3 & C3 & S3 & T3 & K3 & EN3); [rewrite allf_plug, !allf_N in *; tauto|]. unfold finish in E3. rewrite E3.
      destruct (OUT c _ c1 _ b1 E p y' (N l1 i x1 r1) q' g z' u' false b2 b3 c3 l3 x3 r3 C1 S1S HI (fun _ => I) K1 K2 K3 C3 S3) as (O1 & O2 & O3 & O4); [rewrite !tinted_N; tauto|exact G3|exact T3|].
      exists b3, c3, l3, p, x3, r3. do 6 (split; [first [reflexivity|assumption]|]). split; [|exact O4]. rewrite EN3, EN1. apply ents_plug. rewrite ?ents_N; repeat (rewrite <- ?app_assoc; cbn [app]); reflexivity.
    - (* left right *)
      destruct (unflag_ok b c _ G) as (b1 & c1 & S1 & E1 & G1 & C1 & S1s & K1 & A1); [discriminate|exact (proj1 HT)|]. assert (S1S := S1s). destruct S1 as [|S1 g' z' u']; cbn [sim] in S1s; [tauto|]. destruct S1 as [|q' p' y' S1]; cbn [sim] in S1s; [tauto|]. destruct S1 as [|l1 i' x1 r1]; cbn [sim] in S1s; [tauto|]. destruct S1s as (<- & Cz & (<- & Cy & Sq & (<- & Cx & Sl & Sr)) & Su).
      assert (EN1 := proj1 (sim_facts _ _ (sim_plug _ _ _ _ C1 S1S))).
      unfold rotate_insert. rewrite E1. cbn [bind]. rewrite (onleft_l b1 c1 _ p y' _ g z' u' G1). cbn [bind negb]. rewrite (onleft_r b1 (CL c1 g z' u') l1 i x1 r1 p y' q' G1). cbn [bind negb].
      destruct (rot_left b1 (CL c1 g z' u') q' i x1 l1 p y' r1 G1) as (b2 & E2 & G2 & K2). rewrite E2. cbn [bind plug] in *. rewrite (parent_at b2 (CL (CL c1 g z' u') i x1 r1) _ p y' l1 G2). cbn [bind cpar]. rewrite (parent_at b2 (CL c1 g z' u') _ i x1 r1 G2). cbn [bind cpar].
      destruct (rot_right b2 c1 _ i x1 r1 g z' u' G2) as (b4 & E4 & G4 & K4). rewrite E4. cbn [bind].
      destruct (finish_r b4 c1 _ i x1 r1 g z' u' G4) as (b3 & c3 & l3 & x3 & r3 & E3 & G3 & C3 & S3 & T3 & K3 & EN3); [rewrite allf_plug, !allf_N in *; tauto|]. unfold finish in E3. rewrite E3.
      destruct (OUT c _ c1 _ b1 E i x1 (N q' p y' l1) r1 g z' u' false b4 b3 c3 l3 x3 r3 C1 S1S HI (fun _ => I) K1 (keepsb_trans _ _ _ K2 K4) K3 C3 S3) as (O1 & O2 & O3 & O4); [rewrite !tinted_N; tauto|exact G3|exact T3|].
      exists b3, c3, l3, i, x3, r3. do 6 (split; [first [reflexivity|assumption]|]). split; [|exact O4]. rewrite EN3, EN1. apply ents_plug. rewrite ?ents_N; repeat (rewrite <- ?app_assoc; cbn [app]); reflexivity.
    - (* right left *)
      destruct (unflag_ok b c _ G) as (b1 & c1 & S1 & E1 & G1 & C1 & S1s & K1 & A1); [discriminate|exact (proj1 HT)|]. assert (S1S := S1s). destruct S1 as [|u' g' z' S1]; cbn [sim] in S1s; [tauto|]. destruct S1 as [|S1 p' y' q']; cbn [sim] in S1s; [tauto|]. destruct S1 as [|l1 i' x1 r1]; cbn [sim] in S1s; [tauto|]. destruct S1s as (<- & Cz & Su & (<- & Cy & (<- & Cx & Sl & Sr) & Sq)).
      assert (EN1 := proj1 (sim_facts _ _ (sim_plug _ _ _ _ C1 S1S))).
      unfold rotate_insert. rewrite E1. cbn [bind]. rewrite (onleft_r b1 c1 _ p y' q' g z' u' G1). cbn [bind negb]. rewrite (onleft_l b1 (CR c1 u' g z') l1 i x1 r1 p y' q' G1). cbn [bind negb].
      destruct (rot_right b1 (CR c1 u' g z') l1 i x1 r1 p y' q' G1) as (b2 & E2 & G2 & K2). rewrite E2. cbn [bind plug] in *. rewrite (parent_at b2 (CR (CR c1 u' g z') l1 i x1) _ p y' q' G2). cbn [bind cpar]. rewrite (parent_at b2 (CR c1 u' g z') _ i x1 _ G2). cbn [bind cpar].
      destruct (rot_left b2 c1 u' i x1 l1 g z' _ G2) as (b4 & E4 & G4 & K4). rewrite E4. cbn [bind].
      destruct (finish_l b4 c1 _ i x1 u' g z' l1 G4) as (b3 & c3 & l3 & x3 & r3 & E3 & G3 & C3 & S3 & T3 & K3 & EN3); [rewrite allf_plug, !allf_N in *; tauto|]. unfold finish in E3. rewrite E3.
      destruct (OUT c _ c1 _ b1 (N r1 p y' q') i x1 E u' g z' l1 true b4 b3 c3 l3 x3 r3 C1 S1S HI (fun _ => I) K1 (keepsb_trans _ _ _ K2 K4) K3 C3 S3) as (O1 & O2 & O3 & O4); [rewrite !tinted_N; tauto|exact G3|exact T3|].
      exists b3, c3, l3, i, x3, r3. do 6 (split; [first [reflexivity|assumption]|]). split; [|exact O4]. rewrite EN3, EN1. apply ents_plug. rewrite ?ents_N; repeat (rewrite <- ?app_assoc; cbn [app]); reflexivity.
    - (* right right *)
      destruct (unflag_ok b c _ G) as (b1 & c1 & S1 & E1 & G1 & C1 & S1s & K1 & A1); [discriminate|exact (proj1 HT)|]. assert (S1S := S1s). destruct S1 as [|u' g' z' S1]; cbn [sim] in S1s; [tauto|]. destruct S1 as [|q' p' y' S1]; cbn [sim] in S1s; [tauto|]. destruct S1 as [|l1 i' x1 r1]; cbn [sim] in S1s; [tauto|]. destruct S1s as (<- & Cz & Su & (<- & Cy & Sq & (<- & Cx & Sl & Sr))).
      assert (EN1 := proj1 (sim_facts _ _ (sim_plug _ _ _ _ C1 S1S))).
      unfold rotate_insert. rewrite E1. cbn [bind]. rewrite (onleft_r b1 c1 _ p y' _ g z' u' G1). cbn [bind negb]. rewrite (onleft_r b1 (CR c1 u' g z') l1 i x1 r1 p y' q' G1). cbn [bind negb]. rewrite (parent_at b1 (CR c1 u' g z') q' p y' _ G1). cbn [bind cpar].
      destruct (rot_left b1 c1 u' p y' q' g z' (N l1 i x1 r1) G1) as (b2 & E2 & G2 & K2). rewrite E2. cbn [bind].
      destruct (finish_l b2 c1 (N l1 i x1 r1) p y' u' g z' q' G2) as (b3 & c3 & l3 & x3 & r3 & E3 & G3 & C3 & S3 & T3 & K3 & EN3); [rewrite allf_plug, !allf_N in *; tauto|]. unfold finish in E3. rewrite E3.
      destruct (OUT c _ c1 _ b1 (N l1 i x1 r1) p y' E u' g z' q' true b2 b3 c3 l3 x3 r3 C1 S1S HI (fun _ => I) K1 K2 K3 C3 S3) as (O1 & O2 & O3 & O4); [rewrite !tinted_N; tauto|exact G3|exact T3|].
      exists b3, c3, l3, p, x3, r3. do 6 (split; [first [reflexivity|assumption]|]). split; [|exact O4]. rewrite EN3, EN1. apply ents_plug. rewrite ?ents_N; repeat (rewrite <- ?app_assoc; cbn [app]); reflexivity.
  Qed.

  Definition topless (c : ctx) (T : bt) : Prop := c = Top \/ black T.
  Definition spotw (b0 : bst) EN (n : nat) (st : bst * option Z) : Prop :=
    exists c l i x r, snd st = Some i /\ grown (fst st) (plug c (N l i x r)) /\ tailm (plug c (N l i x r)) /\ tinted (plug c (N l i x r)) /\ topless c (plug c (N l i x r)) /\ ents (plug c (N l i x r)) = EN /\ keepsb b0 (fst st) /\
      ((k_color x = Some 1 /\ n = S (clen c)) \/ (k_color x = Some 0 /\ n = 0%nat)).
  Definition fixedw (b0 : bst) EN (b' : bst) : Prop := exists T', grown b' T' /\ T' <> E /\ tailm T' /\ tinted T' /\ ents T' = EN /\ keepsb b0 b'.
  Lemma after_recolor_w (b0 b1 b2 : bst) EN n c l g z r : (clen c < n)%nat -> grown b2 (plug c (N l g z r)) -> tailm (plug c (N l g z r)) -> tinted (plug c (N l g z r)) -> topless c (plug c (N l g z r)) -> ents (plug c (N l g z r)) = EN -> keepsb b0 b1 -> keepsb b1 b2 -> k_color z = Some 1 ->
    wp (n <- tget (b_mem b2) (Some g) ;; if k_isroot (n_inf n) then Ret (Break b2) else Ret (Next (b2, Some g))) (fun r => match r with Next s' => exists n', (n' < S n)%nat /\ spotw b0 EN n' s' | Break b' => fixedw b0 EN b' end).
  Proof.
    intros L G T HI HB EN1 K0 K1 Hz. rewrite (tget_at _ _ _ _ _ _ G). cbn [bind n_inf]. assert (K2 : keepsb b0 b2) by (eapply keepsb_trans; eassumption). destruct (k_isroot z) eqn:Ez; cbn [wp].
    - exists (plug c (N l g z r)). split; [exact G|]. split; [apply plug_E; discriminate|]. auto.
    - exists (S (clen c)). split; [lia|]. exists c, l, g, z, r. cbn [fst snd]. split; [reflexivity|]. split; [exact G|]. do 5 (split; [assumption|]). left. auto.
  Qed.
  Lemma fix_insert_w (b : bst) c l i x r : grown b (plug c (N l i x r)) -> tailm (plug c (N l i x r)) -> tinted (plug c (N l i x r)) -> black (plug c (N l i x r)) -> k_color x = Some 1 ->
    exists b' T', fix_insert b (Some i) = Ret b' /\ grown b' T' /\ T' <> E /\ tailm T' /\ tinted T' /\ black T' /\ ents T' = ents (plug c (N l i x r)) /\ keepsb b b' /\ (T' <> E -> exists l1 i1 x1 r1, T' = N l1 i1 x1 r1).
  Proof.
    intros G HT HI HB Hx. remember (ents (plug c (N l i x r))) as EN eqn:EEN. symmetry in EEN. unfold fix_insert.
    match goal with |- context [while_loop ?f ?bd ?s0] => assert (W : wp (while_loop f bd s0) (fixedw b EN)) end.
    { eapply (wp_while_g (spotw b EN)) with (n := S (clen c)).
      - clear c l i x r G HT HI HB Hx EEN. intros n [b1 ni] (c & l & i & x & r & Ei & G & HT & HI & HB & EN1 & K & CASE). cbn [fst snd] in *. subst ni. rewrite (parent_at _ _ _ _ _ _ G). cbn [bind].
        assert (DONE : fixedw b EN b1) by (exists (plug c (N l i x r)); split; [exact G|]; split; [apply plug_E; discriminate|]; auto).
        assert (HD : {c = Top} + {c <> Top}) by (destruct c; [left; reflexivity|right; discriminate..]). destruct HD as [-> |HD]; [exact DONE|].
        destruct HB as [HB|HB]; [congruence|].
        assert (PC : exists c1 p y q, cpar c = Some p /\ (c = CL c1 p y q \/ c = CR c1 q p y) /\ tint y).
        { destruct c as [|c1 p y q|c1 q p y]; [congruence|..]; exists c1, p, y, q; cbn [cpar plug] in *; apply tinted_plug in HI as (_ & HI & _); apply tinted_N in HI; tauto. }
        destruct PC as (c1 & p & y & q & -> & EC & HY).
        assert (RP : exists v, is_red (b_mem b1) (Some p) = Ret (v =? 1) /\ k_color y = Some v).
        { destruct HY as [HY|HY]; rewrite HY; [exists 0|exists 1]; (split; [|reflexivity]); destruct EC as [-> | ->]; cbn [plug] in G; eapply is_red_at; eassumption. }
        destruct RP as (v & RP & Hv). rewrite RP. cbn [bind].
        destruct CASE as [(Hx & ->)|(Hx & ->)].
        2: { assert ((if v =? 1 then is_red (b_mem b1) (Some i) else Ret false) = Ret false) as -> by (rewrite (is_red_at _ _ _ _ _ _ _ G Hx); destruct (v =? 1); reflexivity). cbn [bind wp]. exact DONE. }
        rewrite (is_red_at _ _ _ _ _ _ _ G Hx). unfold tint in HY. rewrite Hv in HY. destruct HY as [HY|HY]; injection HY as ->; cbn [Z.eqb Pos.eqb]; [exact DONE|].
        cbn [bind].
        assert (NT1 : c1 <> Top) by (intros ->; destruct EC as [-> | ->]; cbn [plug black] in HB; congruence).
        assert (PG : exists pl pr, plug c (N l i x r) = plug c1 (N pl p y pr)) by (destruct EC as [-> | ->]; cbn [plug]; eauto).
        destruct PG as (pl & pr & ES).
        assert (C2 : exists c2 g z u, (c1 = CL c2 g z u \/ c1 = CR c2 u g z)) by (destruct c1 as [|c2 g z u|c2 u g z]; [congruence|..]; eauto 10).
        destruct C2 as (c2 & g & z & u & EC1).
        assert (G' := G). rewrite ES in G'.
        assert (EP : get_parent (b_mem b1) (Some p) = Ret (Some g)) by (destruct EC1 as [-> | ->]; rewrite (parent_at _ _ _ _ _ _ G'); reflexivity).
        assert (EU : get_sibling (b_mem b1) (Some p) = Ret (root u)) by (destruct EC1 as [-> | ->]; [apply (sibling_l _ _ _ _ _ _ _ _ _ G')|apply (sibling_r _ _ _ _ _ _ _ _ _ G')]).
        rewrite EP, EU. cbn [bind].
        assert (BLK : wp (' (b0, node_idx) <- rotate_insert b1 (Some i) (Some p) ;; n <- tget (b_mem b0) node_idx ;; (if k_isroot (n_inf n) then Ret (Break b0) else Ret (Next (b0, node_idx)))) (fun r => match r with Next s' => exists n', (n' < Datatypes.S (clen c))%nat /\ spotw b EN n' s' | Break b' => fixedw b EN b' end)).
        { destruct (rotate_insert_w b1 c l i x r p y q c1 G HT HI EC NT1) as (b2 & c3 & l3 & i3 & x3 & r3 & E2 & G2 & Hx3 & HT3 & HI3 & HB3 & EN3 & K3).
          rewrite E2. cbn [bind]. rewrite (tget_at _ _ _ _ _ _ G2). cbn [bind n_inf]. assert (K4 : keepsb b b2) by (eapply keepsb_trans; eassumption). destruct (k_isroot x3); cbn [wp].
          - exists (plug c3 (N l3 i3 x3 r3)). split; [exact G2|]. split; [apply plug_E; discriminate|]. split; [exact HT3|]. split; [exact HI3|]. split; [congruence|exact K4].
          - exists 0%nat. split; [lia|]. exists c3, l3, i3, x3, r3. cbn [fst snd]. split; [reflexivity|]. split; [exact G2|]. split; [exact HT3|]. split; [exact HI3|]. split; [right; auto|]. split; [congruence|]. split; [exact K4|]. right. auto. }
        destruct u as [|ul ui w ur]; [cbn [root bind]; exact BLK|].
        assert (HI' := HI). rewrite ES in HI'.
        assert (UC : tint w) by (destruct EC1 as [-> | ->]; cbn [plug] in HI'; apply tinted_plug in HI' as (_ & HI' & _); rewrite !tinted_N in HI'; tauto).
        assert (UV : exists uv, k_color w = Some uv /\ (uv = 0 \/ uv = 1)) by (destruct UC as [-> | ->]; eauto). destruct UV as (uv & Hw & UV).
        assert (RU : is_red (b_mem b1) (Some ui) = Ret (uv =? 1)) by (destruct EC1 as [-> | ->]; cbn [plug] in G'; [apply (is_red_at b1 (CR c2 (N pl p y pr) g z) ul ui w ur uv G' Hw)|apply (is_red_at b1 (CL c2 g z (N pl p y pr)) ul ui w ur uv G' Hw)]).
        cbn [root]. rewrite RU. cbn [bind]. destruct UV as [-> | ->]; cbn [Z.eqb Pos.eqb]; [exact BLK|].
        assert (TL : forall S S' : bt, black (plug c2 S) -> topless c2 (plug c2 S')) by (intros S S' X; assert (HD2 : {c2 = Top} + {c2 <> Top}) by (destruct c2; [left; reflexivity|right; discriminate..]); destruct HD2 as [HD2|HD2]; [left; exact HD2|right; eapply black_plug; eassumption]).
        rewrite ES in *. destruct EC1 as [-> | ->]; cbn [plug] in *.
        + destruct (recolor_l b1 c2 pl p y pr g z ul ui w ur G) as (b2 & E2 & G2 & K2). rewrite E2. cbn [bind]. eapply (after_recolor_w b b1 b2 EN (clen c) c2 _ g _ _); try eassumption; try reflexivity.
          * destruct EC as [-> | ->]; cbn [clen]; lia.
          * eapply tailm_color; [|..|exact HT]; rewrite ?allf_N; cbn [with_color k_isroot]; tauto.
          * rewrite tinted_plug, !tinted_N in *. unfold tint in *. cbn [with_color k_color]. tauto.
          * eapply TL. exact HB.
          * rewrite <- EN1. apply ents_plug. rewrite !ents_N. reflexivity.
        + destruct (recolor_r b1 c2 pl p y pr g z ul ui w ur G) as (b2 & E2 & G2 & K2). rewrite E2. cbn [bind]. eapply (after_recolor_w b b1 b2 EN (clen c) c2 _ g _ _); try eassumption; try reflexivity.
          * destruct EC as [-> | ->]; cbn [clen]; lia.
          * eapply tailm_color; [|..|exact HT]; rewrite ?allf_N; cbn [with_color k_isroot]; tauto.
          * rewrite tinted_plug, !tinted_N in *. unfold tint in *. cbn [with_color k_color]. tauto.
          * eapply TL. exact HB.
          * rewrite <- EN1. apply ents_plug. rewrite !ents_N. reflexivity.
      - exists c, l, i, x, r. cbn [fst snd]. split; [reflexivity|]. split; [exact G|]. split; [exact HT|]. split; [exact HI|]. split; [right; exact HB|]. split; [exact EEN|]. split; [apply keepsb_refl|]. left. auto.
      - assert (HF := clen_fuel _ _ _ _ _ _ _ (g_at _ _ G)). lia. }
    apply wp_ex in W as (b1 & E1 & T1 & G1 & NE1 & TT & HI1 & EN1 & K1). rewrite E1. cbn [bind]. destruct T1 as [|l1 i1 x1 r1]; [congruence|].
    destruct (paint_ok b1 Top l1 i1 x1 r1 0 G1) as (b2 & E2 & G2 & K2). exists b2, (N l1 i1 (with_color 0 x1) r1). destruct (g_at _ _ G1) as (_ & _ & HR). rewrite HR. split; [exact E2|]. split; [exact G2|]. split; [discriminate|].
    split; [exact TT|]. split; [rewrite tinted_N in *; unfold tint in *; cbn [with_color k_color]; tauto|]. split; [reflexivity|]. split; [rewrite <- EN1, !ents_N; reflexivity|]. split; [eapply keepsb_trans; eassumption|eauto 10].
  Qed.

  Lemma marked_flags (c : ctx) : forall S : bt, c <> Top -> marked (plug c S) <-> last (cflag c) false = true.
  Proof.
    induction c as [|c IH i x r|c IH l i x]; intros S NT; [congruence|..]; cbn [plug cflag]; assert (HD : {c = Top} + {c <> Top}) by (destruct c; [left; reflexivity|right; discriminate..]); (destruct HD as [-> |HD]; [cbn; tauto|]); rewrite (IH _ HD); (destruct c; [congruence|..]); cbn [cflag]; tauto.
  Qed.
  Record wgood (b : bst) (T : bt) (h : list (Z * option D)) : Prop := { w_def : default b; w_grown : grown b T; w_cont : cont T h; w_ne : T <> E; w_tail : tailm T; w_tint : tinted T; w_black : black T }.
  (** the end of an insertion, at a red node below the root *)
  Definition settle (b : bst) (node_idx : option Z) : res bst := p <- get_parent (b_mem b) node_idx ;; pr <- is_red (b_mem b) p ;; if pr : bool then fix_insert b node_idx else Ret b.
  Lemma settle_ok (b : bst) c l i x r h : default b -> grown b (plug c (N l i x r)) -> c <> Top -> cont (plug c (N l i x r)) h -> tailm (plug c (N l i x r)) -> tinted (plug c (N l i x r)) -> black (plug c (N l i x r)) -> k_color x = Some 1 ->
    exists b' T', settle b (Some i) = Ret b' /\ wgood b' T' h /\ b_os b' = b_os b.
  Proof.
    intros HD G NT C HT HI HB Hx. unfold settle. rewrite (parent_at _ _ _ _ _ _ G). cbn [bind].
    assert (PC : exists c1 p y q, cpar c = Some p /\ (c = CL c1 p y q \/ c = CR c1 q p y) /\ tint y).
    { destruct c as [|c1 p y q|c1 q p y]; [congruence|..]; exists c1, p, y, q; cbn [cpar plug] in *; apply tinted_plug in HI as (_ & HI & _); apply tinted_N in HI; tauto. }
    destruct PC as (c1 & p & y & q & -> & EC & HY).
    assert (RP : exists v, is_red (b_mem b) (Some p) = Ret (v =? 1)).
    { destruct HY as [HY|HY]; [exists 0|exists 1]; destruct EC as [-> | ->]; cbn [plug] in G; eapply is_red_at; eassumption. }
    destruct RP as (v & RP). rewrite RP. cbn [bind]. destruct (v =? 1).
    - destruct (fix_insert_w b c l i x r G HT HI HB Hx) as (b' & T' & E1 & G1 & NE1 & HT1 & HI1 & HB1 & EN1 & (K1 & K2 & K3 & K4) & _). exists b', T'. split; [exact E1|]. split; [|exact K1]. split; try assumption; [unfold default in *; congruence|]. eapply cont_ents; [symmetry; exact EN1|exact C].
    - exists b, (plug c (N l i x r)). split; [reflexivity|]. split; [|reflexivity]. split; try assumption. apply plug_E. discriminate.
  Qed.
  Lemma rb_insert_w (b : bst) T h k d : wgood b T h -> exists b' T', rb_insert b k d = Ret b' /\ wgood b' T' (h ++ [(k, d)]) /\ b_os b' = b_os b.
  Proof.
    intros [RD RG RC RN [RT RM] RI RB]. set (y := mkinfo (Some k) d 0 1 false None (Some 1)). destruct (last_data h k) as [d0|] eqn:EL.
    - destruct (insert_again b T h k d RD RG RC RN ltac:(congruence)) as (c & l & i & x & r & b1 & ET & E1 & B1 & B2 & Ek & G1 & C1 & ES). unfold rb_insert. rewrite E1. cbn [bind]. rewrite ES. cbn [bind]. rewrite (tget_at _ _ _ _ _ _ G1). cbn [bind n_inf with_data k_isroot]. subst T.
      destruct (on_mem_info b1 c l i _ r (fun _ => y) G1) as (b2 & E2 & G2 & (K21 & K22 & K23 & K24) & _). change (fun t => tmod t (Some i) (rb_node k d)) with (fun t : mem => tmod t (Some i) (set_inf (fun _ => y))). rewrite E2. cbn [bind].
      assert (EN : forall y', ent y' = ent y -> ents (plug c (N l i (with_data d x) r)) = ents (plug c (N l i y' r))) by (intros y' Ey; apply ents_plug; rewrite !ents_N, Ey; unfold ent; cbn [with_data k_key k_data y]; rewrite Ek; reflexivity).
      assert (HD : {c = Top} + {c <> Top}) by (destruct c; [left; reflexivity|right; discriminate..]). destruct (k_isroot x) eqn:Er.
      + destruct HD as [-> |HD]; [|exfalso; apply tail_plug in RT as [_ RT]; [|exact HD]; apply allf_N in RT; destruct RT; congruence]. cbn [plug] in *.
        destruct (on_mem_info b2 Top l i _ r (fun z => with_color 0 (with_isroot true z)) G2) as (b3 & E3 & G3 & (K31 & K32 & K33 & K34) & _). exists b3, (N l i (with_color 0 (with_isroot true y)) r). split; [exact E3|]. split; [|congruence].
        split; [unfold default in *; congruence|exact G3|eapply cont_ents; [apply EN; reflexivity|exact C1]|discriminate|split; [exact RT|reflexivity]| |reflexivity]. rewrite tinted_N in *. unfold tint in *. cbn. tauto.
      + assert (NT : c <> Top) by (intros ->; cbn [plug marked] in RM; congruence).
        change (exists b' T', settle b2 (Some i) = Ret b' /\ wgood b' T' (h ++ [(k, d)]) /\ b_os b' = b_os b). destruct (settle_ok b2 c l i y r (h ++ [(k, d)])) as (b3 & T3 & E3 & G3 & O3); try assumption; [unfold default in *; congruence|eapply cont_ents; [apply EN; reflexivity|exact C1]| | |eapply black_plug; eassumption|reflexivity|exists b3, T3; split; [exact E3|]; split; [exact G3|congruence]].
        * eapply tailm_color; [|reflexivity|reflexivity|split; eassumption]. rewrite Er. reflexivity.
        * rewrite tinted_plug, tinted_N in *. unfold tint. cbn. tauto.
    - destruct (insert_any b T h k d RD RG RC RN EL) as (c & c' & b1 & x & ET & NT & E1 & B1 & B2 & B3 & B4 & CS & G1 & FX & CT & C1 & _ & ES). unfold rb_insert. rewrite E1. cbn [bind]. rewrite ES. cbn [bind]. rewrite (tget_at _ _ _ _ _ _ G1). cbn [bind n_inf]. destruct FX as [FX ->].
      destruct (on_mem_info b1 c' E (b_size b) x E (fun _ => y) G1) as (b2 & E2 & G2 & (K21 & K22 & K23 & K24) & _). change (fun t => tmod t (Some (b_size b)) (rb_node k d)) with (fun t : mem => tmod t (Some (b_size b)) (set_inf (fun _ => y))). rewrite E2. cbn [bind]. subst T.
      assert (NT' : c' <> Top) by (intros X; apply NT; apply (csim_facts c c' CS); exact X). destruct CT as [CT CF].
      change (exists b' T', settle b2 (Some (b_size b)) = Ret b' /\ wgood b' T' (h ++ [(k, d)]) /\ b_os b' = b_os b). destruct (settle_ok b2 c' E (b_size b) y E (h ++ [(k, d)])) as (b3 & T3 & E3 & G3 & O3); try assumption; [unfold default in *; congruence| | | | |reflexivity|exists b3, T3; split; [exact E3|]; split; [exact G3|congruence]].
      + eapply cont_ents; [|exact C1]. apply ents_plug. rewrite !ents_N. unfold ent. injection FX as FX1 FX2 _ _. rewrite FX1, FX2. reflexivity.
      + split; [|apply marked_flags; [exact NT'|]; rewrite CF; apply marked_flags in RM; assumption]. apply tail_plug; [exact NT'|]. apply tail_plug in RT as [RT _]; [|exact NT]. split; [apply CT; exact RT|]. apply allf_N. split; [reflexivity|]. split; constructor.
      + assert (HS : sim (plug c E) (plug c' E)) by (apply sim_plug; [exact CS|exact I]). apply (tinted_sim _ _ HS) in RI. rewrite tinted_plug, ?tinted_N in *. split; [apply RI|]. split; [|apply RI]. unfold tint. cbn. split; [auto|]. split; constructor.
      + assert (HS : sim (plug c E) (plug c' E)) by (apply sim_plug; [exact CS|exact I]). apply (black_sim _ _ HS) in RB. apply (black_plug c' NT' _ _ RB).
  Qed.
  Lemma rb_build_w os h : h <> [] -> exists b T, build_with rb_insert None os h = Ret b /\ wgood b T h /\ b_os b = os.
  Proof.
    intros NE. destruct h as [|[k d] h]; [congruence|]. unfold build_with. change (bst_new _ _ None os) with (Ret (fresh (D := D) os)). cbn [bind insert_with]. rewrite rb_first. cbn [bind].
    assert (ALL : forall h (b : bst) T h0, wgood b T h0 -> exists b' T', insert_with rb_insert b h = Ret b' /\ wgood b' T' (h0 ++ h) /\ b_os b' = b_os b).
    { clear. induction h as [|[k d] h IH]; intros b T h0 G; cbn [insert_with]; [exists b, T; rewrite app_nil_r; auto|]. destruct (rb_insert_w b T h0 k d G) as (b1 & T1 & E1 & G1 & O1). rewrite E1. cbn [bind]. destruct (IH _ _ _ G1) as (b2 & T2 & E2 & G2 & O2). exists b2, T2. rewrite <- app_assoc in G2. split; [exact E2|]. split; [exact G2|congruence]. }
    destruct (ALL h (one os (mkinfo (Some k) d 0 1 true None (Some 0))) (N E 0 (mkinfo (Some k) d 0 1 true None (Some 0)) E) [(k, d)]) as (b & T & E1 & G & O); [|exists b, T; auto].
    split; [reflexivity|apply one_grown|apply one_cont; reflexivity|discriminate|split; [split; constructor|reflexivity]| |reflexivity]. apply tinted_N. unfold tint. cbn. split; [auto|]. split; constructor.
  Qed.

  (** ** CartesianTree, any priorities, keys inserted again *)
  Definition ranked (T : bt) : Prop := Forall (fun x => k_prio x <> None) (infos T).
  Lemma ranked_plug (c : ctx) (S : bt) : ranked (plug c S) <-> Forall (fun x => k_prio x <> None) (cl c) /\ ranked S /\ Forall (fun x => k_prio x <> None) (cr c).
  Proof. unfold ranked. rewrite infos_plug, !Forall_app. tauto. Qed.
  Lemma ranked_N l i x (r : bt) : ranked (N l i x r) <-> k_prio x <> None /\ ranked l /\ ranked r.
  Proof. unfold ranked. cbn [infos]. rewrite Forall_app, Forall_cons_iff. tauto. Qed.
  Lemma ranked_sim T : forall T' : bt, sim T T' -> ranked T -> ranked T'.
  Proof. induction T as [|l IHl i x r IHr]; intros [|l' i' x' r']; cbn [sim]; try tauto. rewrite !ranked_N. intros (_ & Ex & Sl & Sr) (A & B & C). injection Ex as _ _ Ex _. rewrite <- Ex. eauto. Qed.
  Lemma bubble_up_w (b : bst) (c : ctx) (l : bt) s x (r : bt) : grown b (plug c (N l s x r)) -> c <> Top -> ranked (plug c (N l s x r)) -> marked (plug c (N l s x r)) ->
    exists b' T', bubble_up b (Some s) = Ret b' /\ grown b' T' /\ ranked T' /\ marked T' /\ ents T' = ents (plug c (N l s x r)) /\ keepsb b b'.
  Proof.
    intros G NT HR HM. unfold bubble_up. rewrite (tget_at _ _ _ _ _ _ G). cbn [bind n_parent].
    assert (exists pc, cpar c = Some pc /\ exists n, aget (b_mem b) pc = Ret n) as (pc & -> & n0 & ->).
    { destruct c as [|c j y q|c q j y]; [congruence|..]; cbn [cpar plug] in *; exists j; (split; [reflexivity|]); assert (HX := sub_cell _ _ _ _ _ _ _ (g_at _ _ G)); unfold cell in HX; destruct (aget (b_mem b) j) as [[n|]| |]; try discriminate; eauto. }
    cbn [bind]. remember (ents (plug c (N l s x r))) as EN eqn:EEN. symmetry in EEN.
    match goal with |- context [while_loop ?f ?bd ?s0] => assert (W : wp (while_loop f bd s0) (fun b' => exists c l r, grown b' (plug c (N l s x r)) /\ ranked (plug c (N l s x r)) /\ (c = Top \/ marked (plug c (N l s x r))) /\ keepsb b b' /\ ents (plug c (N l s x r)) = EN)) end.
    { eapply (wp_while_g (fun n b' => exists c l r, n = clen c /\ grown b' (plug c (N l s x r)) /\ ranked (plug c (N l s x r)) /\ (c = Top \/ marked (plug c (N l s x r))) /\ keepsb b b' /\ ents (plug c (N l s x r)) = EN)) with (n := clen c).
      - clear c l r G NT HR HM EEN. intros n b1 (c & l & r & -> & G & HR & HM & K & EN1). rewrite (tget_at _ _ _ _ _ _ G). cbn [bind n_parent].
        assert (DONE : exists c0 l0 r0, grown b1 (plug c0 (N l0 s x r0)) /\ ranked (plug c0 (N l0 s x r0)) /\ (c0 = Top \/ marked (plug c0 (N l0 s x r0))) /\ keepsb b b1 /\ ents (plug c0 (N l0 s x r0)) = EN) by (exists c, l, r; auto).
        assert (UP : forall c2 S S', (CL c2 0 x (N l s x r) = Top \/ marked (plug c2 S)) -> S <> E -> S' <> E -> c2 = Top \/ marked (plug c2 S')).
        { clear. intros c2 S S' [X|X] _ _; [discriminate|]. assert (HD : {c2 = Top} + {c2 <> Top}) by (destruct c2; [left; reflexivity|right; discriminate..]). destruct HD as [HD|HD]; [left; exact HD|right]. rewrite marked_flags in * by exact HD. exact X. }
        assert (ND := grown_neq _ _ G). destruct c as [|c j y q|c q j y]; cbn [cpar plug clen] in *; [exact DONE|..].
        + assert (HR' := HR). rewrite ranked_plug, !ranked_N in HR'. destruct (k_prio y) as [p|] eqn:Ey; [|tauto]. destruct (k_prio x) as [np|] eqn:Ex; [|tauto]. rewrite (tget_at b1 c _ j y q G). cbn [bind n_inf]. unfold n_prio. cbn [n_inf]. rewrite Ey, Ex. cbn [bind]. destruct (Z.ltb_spec np p) as [L|L]; [|exact DONE].
          cbn [n_right]. rewrite oeqb_no by (intros X; apply root_In in X; dj ND). destruct (rot_right b1 c l s x r j y q G) as (b2 & E2 & G2 & K2). rewrite E2. cbn [bind wp].
          exists (clen c). split; [lia|]. exists c, l, (N r j y q). split; [reflexivity|]. split; [exact G2|]. split; [rewrite ranked_plug, !ranked_N; rewrite Ey, Ex; tauto|]. split; [eapply UP; [destruct HM as [HM|HM]; [discriminate|right; exact HM]|discriminate|discriminate]|]. split; [eapply keepsb_trans; eassumption|]. rewrite <- EN1; apply ents_plug; rewrite !ents_N, <- app_assoc; reflexivity.
        + assert (HR' := HR). rewrite ranked_plug, !ranked_N in HR'. destruct (k_prio y) as [p|] eqn:Ey; [|tauto]. destruct (k_prio x) as [np|] eqn:Ex; [|tauto]. rewrite (tget_at b1 c q j y _ G). cbn [bind n_inf]. unfold n_prio. cbn [n_inf]. rewrite Ey, Ex. cbn [bind]. destruct (Z.ltb_spec np p) as [L|L]; [|exact DONE].
          cbn [n_right root]. rewrite oeqb_yes. destruct (rot_left b1 c q s x l j y r G) as (b2 & E2 & G2 & K2). rewrite E2. cbn [bind wp].
          exists (clen c). split; [lia|]. exists c, (N q j y l), r. split; [reflexivity|]. split; [exact G2|]. split; [rewrite ranked_plug, !ranked_N; rewrite Ey, Ex; tauto|]. split; [eapply UP; [destruct HM as [HM|HM]; [discriminate|right; exact HM]|discriminate|discriminate]|]. split; [eapply keepsb_trans; eassumption|]. rewrite <- EN1; apply ents_plug; rewrite !ents_N, <- app_assoc; reflexivity.
      - exists c, l, r. split; [reflexivity|]. split; [exact G|]. split; [exact HR|]. split; [right; exact HM|]. split; [apply keepsb_refl|exact EEN].
      - assert (HF := clen_fuel _ _ _ _ _ _ _ (g_at _ _ G)). lia. }
    apply wp_ex in W as (b1 & E1 & c1 & l1 & r1 & G1 & HR1 & HM1 & K1 & EN1). rewrite E1. cbn [bind]. rewrite (tget_at _ _ _ _ _ _ G1). cbn [bind n_parent].
    assert (HD : {c1 = Top} + {c1 <> Top}) by (destruct c1; [left; reflexivity|right; discriminate..]). destruct HD as [-> |HD].
    - cbn [cpar]. destruct (on_mem_info b1 Top l1 s x r1 (with_isroot true) G1) as (b2 & E2 & G2 & K2 & _). exists b2, (N l1 s (with_isroot true x) r1). split; [exact E2|]. split; [exact G2|]. cbn [plug] in *. split; [rewrite ranked_N in *; exact HR1|]. split; [reflexivity|]. split; [rewrite <- EN1, !ents_N; reflexivity|eapply keepsb_trans; eassumption].
    - destruct (cpar c1) eqn:Ec; [|destruct c1; [congruence|discriminate..]]. exists b1, (plug c1 (N l1 s x r1)). destruct HM1 as [HM1|HM1]; [congruence|]. auto 10.
  Qed.
  Record cgood (b : bst) (T : bt) (h : list (Z * option D)) : Prop := { c_def : default b; c_grown : grown b T; c_cont : cont T h; c_ne : T <> E; c_mark : marked T; c_rank : ranked T }.
  Lemma cart_insert_w (b : bst) T h k p d : cgood b T h -> exists b' T', cart_insert b k p d = Ret b' /\ cgood b' T' (h ++ [(k, d)]) /\ b_os b' = b_os b.
  Proof.
    intros [RD RG RC RN RM RI]. set (y := mkinfo (Some k) d 0 1 false (Some p) None).
    assert (NEG : forall (b3 : bst) T3, grown b3 T3 -> marked T3 -> T3 <> E) by (intros b3 [|? ? ? ?] _ X; [destruct X|discriminate]).
    destruct (last_data h k) as [d0|] eqn:EL.
    - destruct (insert_again b T h k d RD RG RC RN ltac:(congruence)) as (c & l & i & x & r & b1 & ET & E1 & B1 & B2 & Ek & G1 & C1 & ES). unfold cart_insert. rewrite E1. cbn [bind]. rewrite ES. cbn [bind]. rewrite (tget_at _ _ _ _ _ _ G1). cbn [bind n_inf with_data k_isroot]. subst T.
      destruct (on_mem_info b1 c l i _ r (fun _ => y) G1) as (b2 & E2 & G2 & (K21 & K22 & K23 & K24) & _). change (fun t => tmod t (Some i) (cart_node k p d)) with (fun t : mem => tmod t (Some i) (set_inf (fun _ => y))). rewrite E2. cbn [bind].
      assert (EN : forall y', ent y' = ent y -> ents (plug c (N l i (with_data d x) r)) = ents (plug c (N l i y' r))) by (intros y' Ey; apply ents_plug; rewrite !ents_N, Ey; unfold ent; cbn [with_data k_key k_data y]; rewrite Ek; reflexivity).
      assert (RK : forall y', k_prio y' = Some p -> ranked (plug c (N l i y' r))) by (intros y' Ey; rewrite ranked_plug, ranked_N in *; rewrite Ey; split; [apply RI|]; split; [|apply RI]; split; [discriminate|apply RI]).
      destruct (k_isroot x) eqn:Er.
      + destruct (on_mem_info b2 c l i _ r (with_isroot true) G2) as (b3 & E3 & G3 & (K31 & K32 & K33 & K34) & _). rewrite E3. exists b3, (plug c (N l i (with_isroot true y) r)). split; [reflexivity|]. split; [|congruence].
        split; [unfold default in *; congruence|exact G3|eapply cont_ents; [apply EN; reflexivity|exact C1]|apply plug_E; discriminate|eapply marked_plug; [|exact RM]; rewrite Er; reflexivity|apply RK; reflexivity].
      + assert (NT : c <> Top) by (intros ->; cbn [plug marked] in RM; congruence).
        destruct (bubble_up_w b2 c l i y r G2 NT) as (b3 & T3 & E3 & G3 & R3 & M3 & N3 & (K31 & K32 & K33 & K34)); [apply RK; reflexivity|eapply marked_plug; [|exact RM]; rewrite Er; reflexivity|]. exists b3, T3. split; [exact E3|]. split; [|congruence].
        split; [unfold default in *; congruence|exact G3|eapply cont_ents; [|exact C1]; rewrite N3; apply EN; reflexivity|eapply NEG; eassumption|exact M3|exact R3].
    - destruct (insert_any b T h k d RD RG RC RN EL) as (c & c' & b1 & x & ET & NT & E1 & B1 & B2 & B3 & B4 & CS & G1 & FX & CT & C1 & _ & ES). unfold cart_insert. rewrite E1. cbn [bind]. rewrite ES. cbn [bind]. rewrite (tget_at _ _ _ _ _ _ G1). cbn [bind n_inf]. destruct FX as [FX ->].
      destruct (on_mem_info b1 c' E (b_size b) x E (fun _ => y) G1) as (b2 & E2 & G2 & (K21 & K22 & K23 & K24) & _). change (fun t => tmod t (Some (b_size b)) (cart_node k p d)) with (fun t : mem => tmod t (Some (b_size b)) (set_inf (fun _ => y))). rewrite E2. cbn [bind]. subst T.
      assert (NT' : c' <> Top) by (intros X; apply NT; apply (csim_facts c c' CS); exact X). destruct CT as [CT CF].
      destruct (bubble_up_w b2 c' E (b_size b) y E G2 NT') as (b3 & T3 & E3 & G3 & R3 & M3 & N3 & (K31 & K32 & K33 & K34)).
      + assert (HS : sim (plug c E) (plug c' E)) by (apply sim_plug; [exact CS|exact I]). apply (ranked_sim _ _ HS) in RI. rewrite ranked_plug, ?ranked_N in *. split; [apply RI|]. split; [|apply RI]. split; [discriminate|]. split; constructor.
      + apply marked_flags; [exact NT'|]. rewrite CF. apply marked_flags in RM; assumption.
      + exists b3, T3. split; [exact E3|]. split; [|congruence]. split; [unfold default in *; congruence|exact G3| |eapply NEG; eassumption|exact M3|exact R3]. eapply cont_ents; [|exact C1]. rewrite N3. apply ents_plug. rewrite !ents_N. unfold ent. injection FX as FX1 FX2 _ _. rewrite FX1, FX2. reflexivity.
  Qed.
  Lemma cart_build_w os h : h <> [] -> exists b T, (b0 <- bst_new None None None os ;; insert_prio b0 h) = Ret b /\ cgood b T (drop_prio h) /\ b_os b = os.
  Proof.
    intros NE. destruct h as [|[[k p] d] h]; [congruence|]. change (bst_new None None None os) with (Ret (fresh (D := D) os)). cbn [bind insert_prio]. rewrite cart_first. cbn [bind].
    assert (ALL : forall h (b : bst) T h0, cgood b T h0 -> exists b' T', insert_prio b h = Ret b' /\ cgood b' T' (h0 ++ drop_prio h) /\ b_os b' = b_os b).
    { clear. induction h as [|[[k p] d] h IH]; intros b T h0 G; cbn [insert_prio]; [exists b, T; cbn [drop_prio map]; rewrite app_nil_r; auto|]. destruct (cart_insert_w b T h0 k p d G) as (b1 & T1 & E1 & G1 & O1). rewrite E1. cbn [bind]. destruct (IH _ _ _ G1) as (b2 & T2 & E2 & G2 & O2). exists b2, T2. rewrite <- app_assoc in G2. split; [exact E2|]. split; [exact G2|congruence]. }
    destruct (ALL h (one os (mkinfo (Some k) d 0 1 true (Some p) None)) (N E 0 (mkinfo (Some k) d 0 1 true (Some p) None) E) [(k, d)]) as (b & T & E1 & G & O); [|exists b, T; auto].
    split; [reflexivity|apply one_grown|apply one_cont; reflexivity|discriminate|reflexivity|]. apply ranked_N. split; [discriminate|]. split; constructor.
  Qed.
End Reins.
