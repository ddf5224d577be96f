(** Proofs: RedBlackTree.delete keeps the red-black invariants and the contents. *)
From Coq Require Import Sorting.Sorted.
From Verif Require Import Base TreeModel TreeModel2 TreeSpec TreeProofs TreeRotate TreeBst TreeTrav TreeQuery TreeLca TreeDel TreeHist TreeBalSpec TreeAvl TreeAvl2 TreeSim TreeTreap TreeSplay TreeRb TreeReins TreeDelSpec TreeDel2 TreeDel3 TreeDel4.

Section RbDel.
  Context {D : Type}.
  Notation info := (info D). Notation node := (node D). Notation mem := (mem D). Notation bst := (bst D). Notation bt := (bt D). Notation ctx := (ctx D).
  (** ** elementary steps on a tree with empty cells *)
  Lemma slim_neq (b : bst) T : slim b T -> forall z, (cnt z (idx T) <= 1)%nat.
  Proof. intros G. apply nodup_cnt. apply (proj1 (proj2 (sl_at _ _ G))). Qed.
  Lemma s_paint (b : bst) c l i x r v : slim b (plug c (N l i x r)) -> exists b', paint v (Some i) b = Ret b' /\ slim b' (plug c (N l i (with_color v x) r)) /\ keepsb b b'.
  Proof. intros G. destruct (s_on_mem_info b c l i x r (with_color v) G) as (b' & E1 & G1 & K1 & _). exists b'. auto. Qed.
  Lemma s_color (b : bst) c l i x r v : slim b (plug c (N l i x r)) -> k_color x = Some v -> color_of (b_mem b) (Some i) = Ret v.
  Proof. intros G H. unfold color_of. rewrite (s_tget_at _ _ _ _ _ _ G). cbn [bind]. unfold n_color. cbn [n_inf]. rewrite H. reflexivity. Qed.
  Lemma s_red (b : bst) c l i x r v : slim b (plug c (N l i x r)) -> k_color x = Some v -> is_red (b_mem b) (Some i) = Ret (v =? 1).
  Proof. intros G H. unfold is_red. rewrite (s_tget_at _ _ _ _ _ _ G). cbn [bind]. unfold n_color. cbn [n_inf]. rewrite H. reflexivity. Qed.
  Lemma s_parent (b : bst) c l i x r : slim b (plug c (N l i x r)) -> get_parent (b_mem b) (Some i) = Ret (cpar c).
  Proof. intros G. unfold get_parent. rewrite (s_tget_at _ _ _ _ _ _ G). reflexivity. Qed.
  Lemma s_onleft_l (b : bst) c l i x r j y q : slim b (plug (CL c j y q) (N l i x r)) -> is_onleft (b_mem b) (Some i) = Ret true.
  Proof. intros G. unfold is_onleft. rewrite (s_parent _ _ _ _ _ _ G). cbn [bind cpar]. cbn [plug] in G. rewrite (s_tget_at _ _ _ _ _ _ G). cbn [bind n_left root]. rewrite oeqb_yes. reflexivity. Qed.
  Lemma s_onleft_r (b : bst) c l i x r j y q : slim b (plug (CR c q j y) (N l i x r)) -> is_onleft (b_mem b) (Some i) = Ret false.
  Proof. intros G. unfold is_onleft. rewrite (s_parent _ _ _ _ _ _ G). cbn [bind cpar]. cbn [plug] in G. rewrite (s_tget_at _ _ _ _ _ _ G). cbn [bind n_left]. assert (ND := slim_neq _ _ G). rewrite oeqb_no by (intros X; apply root_In in X; dj ND). reflexivity. Qed.
  Lemma s_sibling_l (b : bst) c l i x r j y q : slim b (plug (CL c j y q) (N l i x r)) -> get_sibling (b_mem b) (Some i) = Ret (root q).
  Proof. intros G. unfold get_sibling. rewrite (s_parent _ _ _ _ _ _ G). cbn [bind cpar]. cbn [plug] in G. rewrite (s_tget_at _ _ _ _ _ _ G). cbn [bind n_left n_right root]. rewrite oeqb_yes. reflexivity. Qed.
  Lemma s_sibling_r (b : bst) c l i x r j y q : slim b (plug (CR c q j y) (N l i x r)) -> get_sibling (b_mem b) (Some i) = Ret (root q).
  Proof. intros G. unfold get_sibling. rewrite (s_parent _ _ _ _ _ _ G). cbn [bind cpar]. cbn [plug] in G. rewrite (s_tget_at _ _ _ _ _ _ G). cbn [bind n_left n_right]. assert (ND := slim_neq _ _ G). rewrite oeqb_no by (intros X; symmetry in X; apply root_In in X; dj ND). reflexivity. Qed.
  Lemma s_kids (b : bst) c l i x r : slim b (plug c (N l i x r)) -> kids_of (b_mem b) (Some i) = Ret (root l, root r).
  Proof. intros G. unfold kids_of. rewrite (s_tget_at _ _ _ _ _ _ G). reflexivity. Qed.
  (** the mark of the root, of a tree in which the hole is not the root *)
  Fixpoint cfl (v : bool) (c : ctx) : ctx :=
    match c with
    | Top => Top
    | CL c i x r => CL (cfl v c) i (match c with Top => with_isroot v x | _ => x end) r
    | CR c l i x => CR (cfl v c) l i (match c with Top => with_isroot v x | _ => x end)
    end.
  Lemma cfl_root v c : c <> Top -> forall S : bt, exists l i x r, plug c S = N l i x r /\ plug (cfl v c) S = N l i (with_isroot v x) r.
  Proof.
    induction c as [|c IH i x r|c IH l i x]; intros NT S; [congruence|..]; cbn [plug cfl]; destruct c as [|c0 i0 x0 r0|c0 l0 i0 x0].
    - cbn [plug cfl]. eauto 8.
    - apply IH. discriminate.
    - apply IH. discriminate.
    - cbn [plug cfl]. eauto 8.
    - apply IH. discriminate.
    - apply IH. discriminate.
  Qed.
  Lemma cfl_sim v c : csim c (cfl v c).
  Proof. induction c as [|c IH i x r|c IH l i x]; cbn [csim cfl]; [exact I|..]; (split; [reflexivity|]; split; [destruct c; reflexivity|]; split; [apply sim_refl|exact IH]). Qed.
  Lemma s_flag (b : bst) c (S : bt) v : slim b (plug c S) -> c <> Top -> exists b', flag_root v b = Ret b' /\ slim b' (plug (cfl v c) S) /\ keepsb b b' /\ (v = true -> marked (plug (cfl v c) S)).
  Proof.
    intros G NT. destruct (cfl_root v c NT S) as (l & i & x & r & E1 & E2). rewrite E1 in G. rewrite E2. destruct (s_on_mem_info b Top l i x r (with_isroot v) G) as (b' & E3 & G1 & K1 & _). exists b'. split; [|split; [exact G1|]; split; [exact K1|]; intros ->; reflexivity].
    rewrite <- E3. unfold flag_root. destruct (sl_at _ _ G) as (_ & _ & ->). reflexivity.
  Qed.
  (** the root of the tree is black *)
  Fixpoint rtop (c : ctx) : Prop := match c with Top => True | CL c _ x _ | CR c _ _ x => (c = Top -> k_color x = Some 0) /\ rtop c end.
  Lemma rtop_black c : forall S : bt, rtop c -> (c = Top -> black S) -> black (plug c S).
  Proof. induction c as [|c IH i x r|c IH l i x]; intros S HR HB; cbn [rtop plug] in *; [apply HB; reflexivity|..]; (apply IH; [tauto|]; intros ->; cbn [black]; tauto). Qed.
  Lemma black_rtop c : forall S : bt, black (plug c S) -> rtop c.
  Proof. induction c as [|c IH i x r|c IH l i x]; intros S H; cbn [rtop plug] in *; [exact I|..]; (split; [intros ->; exact H|eapply IH; exact H]). Qed.
  Lemma rtop_sim c : forall c', csim c c' -> rtop c -> rtop c'.
  Proof.
    induction c as [|c IH i x r|c IH l i x]; intros [|c' i' x' r'|c' l' i' x']; cbn [csim rtop]; try tauto; intros (_ & H & _ & HC) (A & B); rewrite <- (core_color _ _ H); (split; [intros ->; apply A; apply (csim_facts c Top HC); reflexivity|apply IH; assumption]).
  Qed.
  Fixpoint ccomp (d c : ctx) : ctx := match d with Top => c | CL d i x r => CL (ccomp d c) i x r | CR d l i x => CR (ccomp d c) l i x end.
  Lemma plug_comp (d c : ctx) : forall S, plug (ccomp d c) S = plug c (plug d S).
  Proof. induction d as [|d IH i x r|d IH l i x]; intros S; cbn [ccomp plug]; [reflexivity|..]; apply IH. Qed.
  Lemma comp_assoc (d c e : ctx) : ccomp (ccomp d c) e = ccomp d (ccomp c e).
  Proof. induction d as [|d IH i x r|d IH l i x]; cbn [ccomp]; [reflexivity|..]; rewrite IH; reflexivity. Qed.
  Lemma cpar_comp (d c : ctx) : cpar (ccomp d c) = match d with Top => cpar c | _ => cpar d end.
  Proof. destruct d; reflexivity. Qed.
  Lemma rb_pos (T : bt) : forall n, rb T n -> 0 <= n.
  Proof. induction T as [|l IHl i x r IHr]; intros n; cbn [rb]; [lia|]. intros [(_ & A & _)|(_ & A & _)]; apply IHl in A; lia. Qed.
  Lemma with_color_id (x : info) v : k_color x = Some v -> with_color v x = x.
  Proof. destruct x. cbn. intros ->. reflexivity. Qed.
  (** ** the four cases of a black sibling with a red child *)
  Lemma ll_ok (b : bst) c (a : bt) m u (e : bt) j z (qr : bt) p y (S : bt) vy vz : slim b (plug c (N (N (N a m u e) j z qr) p y S)) -> k_color y = Some vy -> k_color z = Some vz ->
    exists b', left_left_case b (Some j) = Ret b' /\ slim b' (plug c (N (N a m (with_color vz u) e) j (with_color vy z) (N qr p y S))) /\ keepsb b b'.
  Proof.
    intros G Hy Hz. unfold left_left_case. rewrite (s_tget_at b (CL c p y S) (N a m u e) j z qr G). cbn [bind n_left n_parent root cpar]. rewrite (s_color b c _ p y S vy G Hy). cbn [bind]. rewrite (s_color b (CL c p y S) _ j z qr vz G Hz). cbn [bind].
    destruct (s_paint b (CL (CL c p y S) j z qr) a m u e vz G) as (b1 & E1 & G1 & K1). rewrite E1. cbn [bind]. cbn [plug] in G1. destruct (s_paint b1 (CL c p y S) _ j z qr vy G1) as (b2 & E2 & G2 & K2). rewrite E2. cbn [bind plug] in *.
    destruct (s_rot_right b2 c _ j _ qr p y S G2) as (b3 & E3 & G3 & K3). rewrite E3. exists b3. split; [reflexivity|]. split; [exact G3|]. eapply keepsb_trans; [exact K1|eapply keepsb_trans; eassumption].
  Qed.
  Lemma rr_ok (b : bst) c (a : bt) m u (e : bt) j z (ql : bt) p y (S : bt) vy vz : slim b (plug c (N S p y (N ql j z (N a m u e)))) -> k_color y = Some vy -> k_color z = Some vz ->
    exists b', right_right_case b (Some j) = Ret b' /\ slim b' (plug c (N (N S p y ql) j (with_color vy z) (N a m (with_color vz u) e))) /\ keepsb b b'.
  Proof.
    intros G Hy Hz. unfold right_right_case. rewrite (s_tget_at b (CR c S p y) ql j z (N a m u e) G). cbn [bind n_right n_parent root cpar]. rewrite (s_color b c S p y _ vy G Hy). cbn [bind]. rewrite (s_color b (CR c S p y) ql j z _ vz G Hz). cbn [bind].
    destruct (s_paint b (CR (CR c S p y) ql j z) a m u e vz G) as (b1 & E1 & G1 & K1). rewrite E1. cbn [bind]. cbn [plug] in G1. destruct (s_paint b1 (CR c S p y) ql j z _ vy G1) as (b2 & E2 & G2 & K2). rewrite E2. cbn [bind plug] in *.
    destruct (s_rot_left b2 c S j _ ql p y _ G2) as (b3 & E3 & G3 & K3). rewrite E3. exists b3. split; [reflexivity|]. split; [exact G3|]. eapply keepsb_trans; [exact K1|eapply keepsb_trans; eassumption].
  Qed.
  Lemma lr_ok (b : bst) c (ql : bt) j z (a : bt) m u (e : bt) p y (S : bt) vy : slim b (plug c (N (N ql j z (N a m u e)) p y S)) -> k_color y = Some vy ->
    exists b', left_right_case b (Some j) = Ret b' /\ slim b' (plug c (N (N ql j z a) m (with_color vy u) (N e p y S))) /\ keepsb b b'.
  Proof.
    intros G Hy. unfold left_right_case. rewrite (s_tget_at b (CL c p y S) ql j z (N a m u e) G). cbn [bind n_right n_parent root cpar]. rewrite (s_color b c _ p y S vy G Hy). cbn [bind].
    destruct (s_paint b (CR (CL c p y S) ql j z) a m u e vy G) as (b1 & E1 & G1 & K1). rewrite E1. cbn [bind]. cbn [plug] in G1. destruct (s_rot_left b1 (CL c p y S) ql m _ a j z e G1) as (b2 & E2 & G2 & K2). rewrite E2. cbn [bind].
    rewrite (s_parent b2 (CL (CL c p y S) m (with_color vy u) e) ql j z a G2). cbn [bind cpar]. cbn [plug] in G2. destruct (s_rot_right b2 c _ m _ e p y S G2) as (b3 & E3 & G3 & K3). rewrite E3. exists b3. split; [reflexivity|]. split; [exact G3|]. eapply keepsb_trans; [exact K1|eapply keepsb_trans; eassumption].
  Qed.
  Lemma rl_ok (b : bst) c (qr : bt) j z (a : bt) m u (e : bt) p y (S : bt) vy : slim b (plug c (N S p y (N (N a m u e) j z qr))) -> k_color y = Some vy ->
    exists b', right_left_case b (Some j) = Ret b' /\ slim b' (plug c (N (N S p y a) m (with_color vy u) (N e j z qr))) /\ keepsb b b'.
  Proof.
    intros G Hy. unfold right_left_case. rewrite (s_tget_at b (CR c S p y) (N a m u e) j z qr G). cbn [bind n_left n_parent root cpar]. rewrite (s_color b c S p y _ vy G Hy). cbn [bind].
    destruct (s_paint b (CL (CR c S p y) j z qr) a m u e vy G) as (b1 & E1 & G1 & K1). rewrite E1. cbn [bind]. cbn [plug] in G1. destruct (s_rot_right b1 (CR c S p y) a m _ e j z qr G1) as (b2 & E2 & G2 & K2). rewrite E2. cbn [bind].
    rewrite (s_parent b2 (CR (CR c S p y) a m (with_color vy u)) e j z qr G2). cbn [bind cpar]. cbn [plug] in G2. destruct (s_rot_left b2 c S m _ a p y _ G2) as (b3 & E3 & G3 & K3). rewrite E3. exists b3. split; [reflexivity|]. split; [exact G3|]. eapply keepsb_trans; [exact K1|eapply keepsb_trans; eassumption].
  Qed.
  Lemma has_red (b : bst) c (l : bt) i x (r : bt) n n' : slim b (plug c (N l i x r)) -> rb l n -> rb r n' ->
    exists v, has_red_child (b_mem b) (Some i) = Ret v /\ (v = true -> red l \/ red r) /\ (v = false -> black l /\ black r) /\ (match root l with None => Ret false | Some _ => is_red (b_mem b) (root l) end) = Ret (match l with E => false | N _ _ y _ => match k_color y with Some 1 => true | _ => false end end).
  Proof.
    intros G Hl Hr. unfold has_red_child. rewrite (s_kids _ _ _ _ _ _ G). cbn [bind].
    assert (L : exists v, (match root l with None => Ret false | Some _ => is_red (b_mem b) (root l) end) = Ret v /\ (v = true -> red l) /\ (v = false -> black l) /\ v = (match l with E => false | N _ _ y _ => match k_color y with Some 1 => true | _ => false end end)).
    { destruct l as [|a k y e]; cbn [root]; [exists false; cbn; repeat split; try discriminate; auto|]. destruct (rb_color _ _ Hl) as [X|(? & ? & ? & ? & X & HC)]; [discriminate|]. injection X as <- <- <- <-. cbn [red black]. destruct HC as [HC|HC]; rewrite (s_red b (CL c i x r) a k y e _ G HC), HC; cbn [Z.eqb Pos.eqb]; [exists false|exists true]; repeat split; try discriminate; auto. }
    assert (R : exists v, (match root r with None => Ret false | Some _ => is_red (b_mem b) (root r) end) = Ret v /\ (v = true -> red r) /\ (v = false -> black r)).
    { destruct r as [|a k y e]; cbn [root]; [exists false; cbn; repeat split; try discriminate; auto|]. destruct (rb_color _ _ Hr) as [X|(? & ? & ? & ? & X & HC)]; [discriminate|]. injection X as <- <- <- <-. cbn [red black]. destruct HC as [HC|HC]; rewrite (s_red b (CR c l i x) a k y e _ G HC), ?HC; cbn [Z.eqb Pos.eqb]; [exists false|exists true]; repeat split; try discriminate; auto. }
    destruct L as (v1 & E1 & A1 & B1 & F1). destruct R as (v2 & E2 & A2 & B2). rewrite E1. cbn [bind]. destruct v1; [exists true; split; [reflexivity|]; split; [auto|]; split; [discriminate|congruence]|]. exists v2. split; [exact E2|]. split; [auto|]. split; [auto|congruence].
  Qed.
  (** ** __fix_deletion, before the black leaf w (in the subtree plug d of the current node) is taken out *)
  Definition mu (c : ctx) : nat := match c with Top => 1 | CL _ _ y _ | CR _ _ _ y => match k_color y with Some 1 => 1 | _ => 2 + clen c end end.
  Lemma mu_le c : (mu c <= 2 + clen c)%nat.
  Proof. destruct c as [|c i x r|c l i x]; cbn [mu clen]; [lia|..]; destruct (k_color x) as [[|[| |]|]|]; lia. Qed.
  Lemma root_in (c : ctx) : c <> Top -> forall S : bt, exists i, root (plug c S) = Some i /\ In i (cidx c).
  Proof.
    induction c as [|c IH i x r|c IH l i x]; intros NT S; [congruence|..]; cbn [plug cidx]; (assert (HD : {c = Top} + {c <> Top}) by (destruct c; [left; reflexivity|right; discriminate..])); destruct HD as [-> |HD].
    - exists i. split; [reflexivity|]. cbn. auto.
    - destruct (IH HD (N S i x r)) as (k & A & B). exists k. split; [exact A|]. rewrite ?in_app_iff. cbn [In]. rewrite ?in_app_iff. auto.
    - exists i. split; [reflexivity|]. rewrite ?in_app_iff. cbn. rewrite ?in_app_iff. auto.
    - destruct (IH HD (N l i x S)) as (k & A & B). exists k. split; [exact A|]. rewrite ?in_app_iff. cbn [In]. rewrite ?in_app_iff. auto.
  Qed.
  Lemma not_root (b : bst) c (S : bt) i : slim b (plug c S) -> c <> Top -> root S = Some i -> oeqb (Some i) (b_root b) = false.
  Proof.
    intros G NT HS. rewrite (proj2 (proj2 (sl_at _ _ G))). destruct (root_in c NT S) as (k & -> & Hk). apply oeqb_no. intros [= ->]. assert (ND := slim_neq _ _ G k). rewrite cnt_plug in ND. apply root_In in HS. rewrite cnt_In in HS, Hk. lia.
  Qed.
  Definition spotd (b0 : bst) EN (w : Z) (x : info) (jp : Z) (n : nat) (st : bst * option Z * Z) : Prop :=
    let '(b, ni, color) := st in
    exists c d, let W := N E w x E in slim b (plug c (plug d W)) /\ ni = root (plug d W) /\ ents (plug c (plug d W)) = EN /\ keepsb b0 b /\ marked (D := D) (plug c (plug d W)) /\ cpar (ccomp d c) = Some jp /\ rtop c /\
      ((color = 0 /\ n = mu c /\ exists k, rb (plug d E) k /\ black (plug d E) /\ crb c (k + 1)) \/ (color = 1 /\ n = 0%nat /\ c <> Top /\ exists m, rb (plug c (plug d E)) m)).
  Definition fixedd (b0 : bst) EN (w : Z) (x : info) (jp : Z) (b : bst) : Prop :=
    exists c, let W := N E w x E in slim b (plug c W) /\ ents (plug c W) = EN /\ keepsb b0 b /\ marked (plug c W) /\ cpar c = Some jp /\ black (plug c E) /\ exists m, rb (plug c E) m.
  Definition dstep (b0 : bst) EN w x jp (n : nat) (st : bst * option Z * Z) : Prop := exists n', (n' < n)%nat /\ spotd b0 EN w x jp n' st.
  Definition post (b0 : bst) EN w x jp (n : nat) (r : ctl (bst * option Z * Z) bst) : Prop := match r with Next s' => dstep b0 EN w x jp n s' | Break _ => False end.
  Ltac simt := cbn [sim]; repeat split; try apply sim_refl; try congruence; auto.
  Ltac ents_eq := rewrite ?ents_N; repeat (rewrite <- ?app_assoc; cbn [app]); reflexivity.

  Definition dbody : bst * option Z * Z -> res (ctl (bst * option Z * Z) bst) := fun '(b, node_idx, color) =>
      if negb (oeqb node_idx (b_root b)) && (color =? 0) then
        sibling_idx <- get_sibling (b_mem b) node_idx ;;
        parent_idx <- get_parent (b_mem b) node_idx ;;
        match sibling_idx with
        | None => Ret (Next (b, parent_idx, color))
        | Some _ =>
          sr <- is_red (b_mem b) sibling_idx ;;
          if sr : bool then
            b <- flag_root false b ;;
            b <- paint 1 parent_idx b ;; b <- paint 0 sibling_idx b ;;
            left <- is_onleft (b_mem b) sibling_idx ;;
            b <- (if left : bool then rot right_rotate b parent_idx sibling_idx else rot left_rotate b parent_idx sibling_idx) ;;
            b <- flag_root true b ;;
            Ret (Next (b, node_idx, color))
          else
            rc <- has_red_child (b_mem b) sibling_idx ;;
            if rc : bool then
              b <- flag_root false b ;;
              ' (l, _) <- kids_of (b_mem b) sibling_idx ;;
              lr <- (match l with None => Ret false | Some _ => is_red (b_mem b) l end) ;;
              left <- is_onleft (b_mem b) sibling_idx ;;
              b <- (match lr, left with
                    | true, true => left_left_case b sibling_idx
                    | true, false => right_left_case b sibling_idx
                    | false, true => left_right_case b sibling_idx
                    | false, false => right_right_case b sibling_idx
                    end) ;;
              b <- flag_root true b ;;
              b <- paint 0 parent_idx b ;;
              Ret (Next (b, node_idx, 1))
            else
              b <- paint 1 sibling_idx b ;;
              pc <- color_of (b_mem b) parent_idx ;;
              if pc =? 0 then Ret (Next (b, parent_idx, color))
              else b <- paint 0 parent_idx b ;; Ret (Next (b, node_idx, 1))
        end
      else Ret (Break b).
  Lemma fix_unfold (b : bst) i : fix_deletion b i = (color <- color_of (b_mem b) i ;; while_loop (2 * fuel (b_mem b)) dbody (b, i, color)).
  Proof. reflexivity. Qed.
  Lemma sim_ents (c c' : ctx) (S : bt) : csim c c' -> ents (plug c' S) = ents (plug c S).
  Proof. intros H. symmetry. apply sim_facts. apply sim_plug; [exact H|apply sim_refl]. Qed.
  Lemma cpar_comp2 (d c c' : ctx) : cpar c = cpar c' -> cpar (ccomp d c) = cpar (ccomp d c').
  Proof. rewrite !cpar_comp. destruct d; auto. Qed.
  (** the colours above the sibling *)
  Definition above (c1 : ctx) (y : info) (k v : Z) : Prop := k_color y = Some v /\ ((v = 0 /\ crb c1 (k + 1 + 1)) \/ (v = 1 /\ cblack c1 /\ crb c1 (k + 1))).
  Lemma close_top (c1 c1' : ctx) y k v (A B : bt) m u : above c1 y k v -> csim c1 c1' -> k_color u = Some v -> rb A (k + 1) -> black A -> rb B (k + 1) -> black B -> exists n, rb (plug c1' (N A m u B)) n.
  Proof.
    intros (Hy & H) CS Hu RA BA RB BB. destruct H as [(-> & HC)|(-> & HB & HC)].
    - destruct (rb_plug c1' (N A m u B) (k + 1 + 1)) as (n & Hn & _); [apply (crb_sim _ _ _ CS HC)|cbn [rb]; left; replace (k + 1 + 1 - 1) with (k + 1) by lia; auto|left; exact Hu|]. eauto.
    - destruct (rb_plug c1' (N A m u B) (k + 1)) as (n & Hn & _); [apply (crb_sim _ _ _ CS HC)|cbn [rb]; right; auto|right; apply (cblack_sim _ _ CS HB)|]. eauto.
  Qed.
  Lemma csim_trans (a : ctx) : forall b c, csim a b -> csim b c -> csim a c.
  Proof. induction a as [|a IH i x r|a IH l i x]; intros [|b i1 x1 r1|b l1 i1 x1] [|c i2 x2 r2|c l2 i2 x2]; cbn [csim]; try tauto; intros (-> & H1 & A1 & B1) (-> & H2 & A2 & B2); (split; [reflexivity|]; split; [congruence|]; split; [eapply sim_trans; eassumption|eauto]). Qed.
  Lemma cfl_l v (c : ctx) p y q : exists y', cfl v (CL c p y q) = CL (cfl v c) p y' q /\ core y' = core y.
  Proof. cbn [cfl]. destruct c; eexists; split; reflexivity. Qed.
  Lemma cfl_r v (c : ctx) p y q : exists y', cfl v (CR c q p y) = CR (cfl v c) q p y' /\ core y' = core y.
  Proof. cbn [cfl]. destruct c; eexists; split; reflexivity. Qed.
  Lemma red_color (T : bt) : red T -> exists a m u e, T = N a m u e /\ k_color u = Some 1.
  Proof. destruct T as [|a m u e]; cbn; [tauto|eauto 8]. Qed.
  Lemma step_l b0 EN w x jp (b : bst) c1 p y q (d : ctx) k v : let W := N E w x E in let c := CL c1 p y q in
    slim b (plug c (plug d W)) -> ents (plug c (plug d W)) = EN -> keepsb b0 b -> marked (plug c (plug d W)) -> cpar (ccomp d c) = Some jp -> rtop c ->
    rb (plug d E) k -> black (plug d E) -> rb q (k + 1) -> above c1 y k v -> (v = 1 -> black q) ->
    wp (dbody (b, root (plug d W), 0)) (post b0 EN w x jp (mu c)).
  Proof.
    intros W c G EN1 K MK JP RT RS BS Rq AB BQ. assert (RK := rb_pos _ _ RS). destruct q as [|ql j z qr]; [cbn [rb] in Rq; lia|]. assert (SE : exists sl i sx sr, plug d W = N sl i sx sr). { assert (NE := plug_ne d E w x E). fold W in NE. destruct (plug d W); [congruence|eauto]. } destruct SE as (sl & i & sx & sr & ES).
    assert (G0 := G). rewrite ES in G0. assert (Hv : k_color y = Some v /\ (v = 0 \/ v = 1)) by (destruct AB as (? & [(? & _)|(? & _)]); auto). destruct Hv as (Hy & Hv).
    assert (ER : root (plug d W) = Some i) by (rewrite ES; reflexivity). unfold dbody. rewrite ER. rewrite (not_root b c (plug d W) i G ltac:(discriminate) ER). cbn [negb andb Z.eqb]. rewrite (s_sibling_l _ _ _ _ _ _ _ _ _ G0). cbn [bind root]. rewrite (s_parent _ _ _ _ _ _ G0). unfold c at 1. cbn [bind cpar]. clear G0.
    unfold c in G. cbn [plug] in G. set (S := plug d W) in *.
    assert (Hz : exists vz, k_color z = Some vz /\ (vz = 0 \/ vz = 1)) by (cbn [rb] in Rq; destruct Rq as [(? & _)|(? & _)]; eauto). destruct Hz as (vz & Hz & Hvz).
    rewrite (s_red b (CR c1 S p y) ql j z qr vz G Hz). cbn [bind]. destruct Hvz as [-> | ->]; cbn [Z.eqb Pos.eqb].
    - (* black sibling *) destruct Rq as [(_ & Rql & Rqr)|(X & _)]; [|congruence]. replace (k + 1 - 1) with k in * by lia.
      destruct (has_red b (CR c1 S p y) ql j z qr k k G Rql Rqr) as (rc & -> & HR1 & HR2 & _). cbn [bind]. destruct rc.
      + (* a red child *) destruct (s_flag b c S false G ltac:(discriminate)) as (b1 & E1 & G1 & K1 & _). rewrite E1. cbn [bind]. destruct (cfl_l false c1 p y (N ql j z qr)) as (y1 & Ec & Cy1). unfold c in G1. rewrite Ec in G1. assert (CS1 := cfl_sim false c1). set (c2 := cfl false c1) in *. cbn [plug] in G1.
        assert (EN2 : ents (plug c2 (N S p y1 (N ql j z qr))) = EN). { rewrite <- EN1. symmetry. apply sim_facts. unfold c. cbn [plug]. apply sim_plug; [exact CS1|]. simt. }
        assert (Hy1 : k_color y1 = Some v) by (rewrite (core_color _ _ Cy1); exact Hy).
        rewrite (s_kids b1 (CR c2 S p y1) ql j z qr G1). cbn [bind]. destruct (has_red b1 (CR c2 S p y1) ql j z qr k k G1 Rql Rqr) as (_ & _ & _ & _ & ->). cbn [bind]. rewrite (s_onleft_r b1 c2 ql j z qr p y1 S G1). cbn [bind].
        assert (FIN : forall b2 A m u B, slim b2 (plug c2 (N (N S p y1 A) m u B)) -> keepsb b1 b2 -> k_color u = Some v -> rb A k -> rb B (k + 1) -> black B -> ents (plug c2 (N (N S p y1 A) m u B)) = EN ->
          wp (b3 <- flag_root true b2;; b4 <- paint 0 (Some p) b3;; Ret (Next (R := bst) (b4, Some i, 1))) (post b0 EN w x jp (mu c))).
        { intros b2 A m u B G2 K2 Hu RA RB BB EN3. destruct (s_flag b2 (CL (CL c2 m u B) p y1 A) S true G2 ltac:(discriminate)) as (b3 & E3 & G3 & K3 & M3). rewrite E3. cbn [bind]. destruct (cfl_l true c2 m u B) as (u2 & Ec2 & Cu2). cbn [cfl] in G3, M3. cbn [cfl] in Ec2. rewrite Ec2 in G3, M3. assert (CS2 := cfl_sim true c2). set (c3 := cfl true c2) in *. cbn [plug] in G3, M3.
          destruct (s_paint b3 (CL c3 m u2 B) S p y1 A 0 G3) as (b4 & E4 & G4 & K4). rewrite E4. cbn [bind wp post]. exists 0%nat. split; [unfold c; cbn [mu]; destruct (k_color y) as [[|[| |]|]|]; lia|]. exists (CL (CL c3 m u2 B) p (with_color 0 y1) A), d. fold W. fold S. cbn [plug] in *.
          assert (CS3 : csim c1 c3) by (eapply csim_trans; eassumption). split; [exact G4|]. split; [symmetry; exact ER|]. split; [|split; [eapply keepsb_trans; [exact K|eapply keepsb_trans; [exact K1|eapply keepsb_trans; [exact K2|eapply keepsb_trans; eassumption]]]|]].
          - rewrite <- EN3. symmetry. transitivity (ents (plug c2 (N (N S p (with_color 0 y1) A) m u B))); [apply ents_plug; ents_eq|]. apply sim_facts. apply sim_plug; [exact CS2|]. simt.
          - split; [eapply (marked_plug (CL c3 m u2 B)); [|exact (M3 eq_refl)]; reflexivity|]. split; [rewrite <- JP; apply cpar_comp2; reflexivity|]. assert (Hu2 : k_color u2 = Some v) by (rewrite (core_color _ _ Cu2); exact Hu). split.
            + cbn [rtop]. split; [discriminate|]. destruct RT as [RT1 RT2]. split; [|apply (rtop_sim _ _ CS3 RT2)]. intros X. rewrite Hu2, <- Hy. apply RT1. apply (csim_facts _ _ CS3). exact X.
            + right. split; [reflexivity|]. split; [reflexivity|]. split; [discriminate|]. eapply (close_top c1 c3 y k v); try eassumption; [cbn [rb]; left; replace (k + 1 - 1) with k by lia; auto|reflexivity]. }
        destruct ql as [|a m u e] eqn:Eql.
        * destruct (HR1 eq_refl) as [X|X]; [destruct X|]. destruct (red_color _ X) as (a & m & u & e & -> & Hu). destruct (rr_ok b1 c2 a m u e j z E p y1 S v 0 G1 Hy1 Hz) as (b2 & E2 & G2 & K2). rewrite E2. cbn [bind].
          cbn [rb] in Rqr. destruct Rqr as [(Y & _)|(_ & Ra & Re & Ba & Be)]; [congruence|]. eapply FIN; [exact G2|exact K2|reflexivity|exact Rql|cbn [rb]; left; replace (k + 1 - 1) with k by lia; auto|reflexivity|]. rewrite <- EN2. apply ents_plug. ents_eq.
        * rewrite <- Eql in *. destruct (k_color u) as [vu|] eqn:Eu; [|rewrite Eql in Rql; cbn [rb] in Rql; destruct Rql as [(Y & _)|(Y & _)]; congruence]. assert (Hvu : vu = 0 \/ vu = 1) by (rewrite Eql in Rql; cbn [rb] in Rql; destruct Rql as [(Y & _)|(Y & _)]; rewrite Eu in Y; injection Y as ->; auto).
          destruct Hvu as [-> | ->].
          -- assert (X : red qr). { destruct (HR1 eq_refl) as [X|X]; [|exact X]. rewrite Eql in X. cbn in X. congruence. } destruct (red_color _ X) as (a' & m' & u' & e' & -> & Hu). destruct (rr_ok b1 c2 a' m' u' e' j z ql p y1 S v 0 G1 Hy1 Hz) as (b2 & E2 & G2 & K2). rewrite E2. cbn [bind].
             cbn [rb] in Rqr. destruct Rqr as [(Y & _)|(_ & Ra & Re & Ba & Be)]; [congruence|]. eapply FIN; [exact G2|exact K2|reflexivity|exact Rql|cbn [rb]; left; replace (k + 1 - 1) with k by lia; auto|reflexivity|]. rewrite <- EN2. apply ents_plug. ents_eq.
          -- rewrite Eql in *. destruct (rl_ok b1 c2 qr j z a m u e p y1 S v G1 Hy1) as (b2 & E2 & G2 & K2). rewrite E2. cbn [bind].
             cbn [rb] in Rql. destruct Rql as [(Y & _)|(_ & Ra & Re & Ba & Be)]; [congruence|]. eapply FIN; [exact G2|exact K2|reflexivity|exact Ra|cbn [rb]; left; replace (k + 1 - 1) with k by lia; auto|exact Hz|]. rewrite <- EN2. apply ents_plug. ents_eq.
      + (* no red child *) destruct (HR2 eq_refl) as [Bl Br]. destruct (s_paint b (CR c1 S p y) ql j z qr 1 G) as (b1 & E1 & G1 & K1). rewrite E1. cbn [bind plug] in *. rewrite (s_color b1 c1 S p y _ v G1 Hy). cbn [bind].
        assert (Rq1 : rb (N ql j (with_color 1 z) qr) k) by (cbn [rb]; right; auto 10). destruct AB as (_ & [(-> & HC)|(-> & HB & HC)]); cbn [Z.eqb Pos.eqb].
        * cbn [wp post]. exists (mu c1). split; [unfold c; cbn [mu clen]; rewrite Hy; pose proof (mu_le c1); lia|]. exists c1, (ccomp d (CL Top p y (N ql j (with_color 1 z) qr))). cbv zeta. fold W. rewrite !plug_comp. fold S. cbn [plug root]. split; [exact G1|]. split; [reflexivity|].
          split; [rewrite <- EN1; unfold c; cbn [plug]; apply ents_plug; ents_eq|]. split; [eapply keepsb_trans; eassumption|]. split; [eapply marked_plug; [|exact MK]; reflexivity|]. split; [rewrite comp_assoc, <- JP; apply cpar_comp2; reflexivity|]. split; [apply RT|]. left. split; [reflexivity|]. split; [reflexivity|].
          exists (k + 1). split; [cbn [rb]; left; replace (k + 1 - 1) with k by lia; auto|]. split; [exact Hy|exact HC].
        * destruct (s_paint b1 c1 S p y _ 0 G1) as (b2 & E2 & G2 & K2). rewrite E2. cbn [bind wp post]. exists 0%nat. split; [unfold c; cbn [mu]; rewrite Hy; lia|]. exists (CL c1 p (with_color 0 y) (N ql j (with_color 1 z) qr)), d. fold W. fold S. cbn [plug]. split; [exact G2|]. split; [symmetry; exact ER|].
          split; [rewrite <- EN1; unfold c; cbn [plug]; apply ents_plug; ents_eq|]. split; [eapply keepsb_trans; [exact K|eapply keepsb_trans; eassumption]|]. split; [eapply marked_plug; [|exact MK]; reflexivity|]. split; [rewrite <- JP; apply cpar_comp2; reflexivity|]. split; [cbn [rtop]; split; [reflexivity|apply RT]|]. right. split; [reflexivity|]. split; [reflexivity|]. split; [discriminate|].
          destruct (rb_plug c1 (N (plug d E) p (with_color 0 y) (N ql j (with_color 1 z) qr)) (k + 1) HC) as (n & Hn & _); [cbn [rb]; left; replace (k + 1 - 1) with k by lia; auto|left; reflexivity|]. eauto.
    - (* red sibling *) destruct Rq as [(X & _)|(_ & Rql & Rqr & Bl & Br)]; [congruence|]. destruct AB as (_ & [(-> & HC)|(-> & _ & _)]); [|specialize (BQ eq_refl); cbn in BQ; congruence].
      destruct (s_flag b c S false G ltac:(discriminate)) as (b1 & E1 & G1 & K1 & _). rewrite E1. cbn [bind]. destruct (cfl_l false c1 p y (N ql j z qr)) as (y1 & Ec & Cy1). unfold c in G1. rewrite Ec in G1. assert (CS1 := cfl_sim false c1). set (c2 := cfl false c1) in *. cbn [plug] in G1.
      assert (EN2 : ents (plug c2 (N S p y1 (N ql j z qr))) = EN). { rewrite <- EN1. symmetry. apply sim_facts. unfold c. cbn [plug]. apply sim_plug; [exact CS1|]. simt. }
      destruct (s_paint b1 c2 S p y1 _ 1 G1) as (b2 & E2 & G2 & K2). rewrite E2. cbn [bind]. destruct (s_paint b2 (CR c2 S p (with_color 1 y1)) ql j z qr 0 G2) as (b3 & E3 & G3 & K3). rewrite E3. cbn [bind]. rewrite (s_onleft_r b3 c2 ql j _ qr p _ S G3). cbn [bind]. cbn [plug] in G3.
      destruct (s_rot_left b3 c2 S j _ ql p _ qr G3) as (b4 & E4 & G4 & K4). rewrite E4. cbn [bind]. destruct (s_flag b4 (CL (CL c2 j (with_color 0 z) qr) p (with_color 1 y1) ql) S true G4 ltac:(discriminate)) as (b5 & E5 & G5 & K5 & M5). rewrite E5. cbn [bind wp post].
      exists 1%nat. split; [unfold c; cbn [mu clen]; rewrite Hy; lia|]. set (c3 := CL (CL c2 j (with_color 0 z) qr) p (with_color 1 y1) ql) in *. assert (CS3 := cfl_sim true c3). exists (cfl true c3), d. cbv zeta. fold W. fold S. split; [exact G5|]. split; [symmetry; exact ER|].
      split; [rewrite (sim_ents _ _ S CS3), <- EN2; unfold c3; cbn [plug]; apply ents_plug; ents_eq|]. split; [eapply keepsb_trans; [exact K|eapply keepsb_trans; [exact K1|eapply keepsb_trans; [exact K2|eapply keepsb_trans; [exact K3|eapply keepsb_trans; eassumption]]]]|].
      split; [apply M5; reflexivity|]. split; [rewrite <- JP; apply cpar_comp2; reflexivity|]. split; [apply (rtop_sim _ _ CS3); unfold c3; cbn [rtop]; split; [discriminate|]; split; [reflexivity|]; apply (rtop_sim _ _ CS1), RT|].
      left. split; [reflexivity|]. split; [reflexivity|]. exists k. split; [exact RS|]. split; [exact BS|]. apply (crb_sim _ _ _ CS3). unfold c3. cbn [crb]. split; [exact Rql|]. right. split; [reflexivity|]. split; [exact Bl|]. split; [reflexivity|]. split; [exact Rqr|]. left. split; [reflexivity|]. apply (crb_sim _ _ _ CS1). exact HC.
  Qed.
  Lemma step_r b0 EN w x jp (b : bst) c1 p y q (d : ctx) k v : let W := N E w x E in let c := CR c1 q p y in
    slim b (plug c (plug d W)) -> ents (plug c (plug d W)) = EN -> keepsb b0 b -> marked (plug c (plug d W)) -> cpar (ccomp d c) = Some jp -> rtop c ->
    rb (plug d E) k -> black (plug d E) -> rb q (k + 1) -> above c1 y k v -> (v = 1 -> black q) ->
    wp (dbody (b, root (plug d W), 0)) (post b0 EN w x jp (mu c)).
  Proof.
    intros W c G EN1 K MK JP RT RS BS Rq AB BQ. assert (RK := rb_pos _ _ RS). destruct q as [|ql j z qr]; [cbn [rb] in Rq; lia|]. assert (SE : exists sl i sx sr, plug d W = N sl i sx sr). { assert (NE := plug_ne d E w x E). fold W in NE. destruct (plug d W); [congruence|eauto]. } destruct SE as (sl & i & sx & sr & ES).
    assert (G0 := G). rewrite ES in G0. assert (Hv : k_color y = Some v /\ (v = 0 \/ v = 1)) by (destruct AB as (? & [(? & _)|(? & _)]); auto). destruct Hv as (Hy & Hv).
    assert (ER : root (plug d W) = Some i) by (rewrite ES; reflexivity). unfold dbody. rewrite ER. rewrite (not_root b c (plug d W) i G ltac:(discriminate) ER). cbn [negb andb Z.eqb]. rewrite (s_sibling_r _ _ _ _ _ _ _ _ _ G0). cbn [bind root]. rewrite (s_parent _ _ _ _ _ _ G0). unfold c at 1. cbn [bind cpar]. clear G0.
    unfold c in G. cbn [plug] in G. set (S := plug d W) in *.
    assert (Hz : exists vz, k_color z = Some vz /\ (vz = 0 \/ vz = 1)) by (cbn [rb] in Rq; destruct Rq as [(? & _)|(? & _)]; eauto). destruct Hz as (vz & Hz & Hvz).
    rewrite (s_red b (CL c1 p y S) ql j z qr vz G Hz). cbn [bind]. destruct Hvz as [-> | ->]; cbn [Z.eqb Pos.eqb].
    - (* black sibling *) destruct Rq as [(_ & Rql & Rqr)|(X & _)]; [|congruence]. replace (k + 1 - 1) with k in * by lia.
      destruct (has_red b (CL c1 p y S) ql j z qr k k G Rql Rqr) as (rc & -> & HR1 & HR2 & _). cbn [bind]. destruct rc.
      + (* a red child *) destruct (s_flag b c S false G ltac:(discriminate)) as (b1 & E1 & G1 & K1 & _). rewrite E1. cbn [bind]. destruct (cfl_r false c1 p y (N ql j z qr)) as (y1 & Ec & Cy1). unfold c in G1. rewrite Ec in G1. assert (CS1 := cfl_sim false c1). set (c2 := cfl false c1) in *. cbn [plug] in G1.
        assert (EN2 : ents (plug c2 (N (N ql j z qr) p y1 S)) = EN). { rewrite <- EN1. symmetry. apply sim_facts. unfold c. cbn [plug]. apply sim_plug; [exact CS1|]. simt. }
        assert (Hy1 : k_color y1 = Some v) by (rewrite (core_color _ _ Cy1); exact Hy).
        rewrite (s_kids b1 (CL c2 p y1 S) ql j z qr G1). cbn [bind]. destruct (has_red b1 (CL c2 p y1 S) ql j z qr k k G1 Rql Rqr) as (_ & _ & _ & _ & ->). cbn [bind]. rewrite (s_onleft_l b1 c2 ql j z qr p y1 S G1). cbn [bind].
        assert (FIN : forall b2 A m u B, slim b2 (plug c2 (N B m u (N A p y1 S))) -> keepsb b1 b2 -> k_color u = Some v -> rb A k -> rb B (k + 1) -> black B -> ents (plug c2 (N B m u (N A p y1 S))) = EN ->
          wp (b3 <- flag_root true b2;; b4 <- paint 0 (Some p) b3;; Ret (Next (R := bst) (b4, Some i, 1))) (post b0 EN w x jp (mu c))).
        { intros b2 A m u B G2 K2 Hu RA RB BB EN3. destruct (s_flag b2 (CR (CR c2 B m u) A p y1) S true G2 ltac:(discriminate)) as (b3 & E3 & G3 & K3 & M3). rewrite E3. cbn [bind]. destruct (cfl_r true c2 m u B) as (u2 & Ec2 & Cu2). cbn [cfl] in G3, M3. cbn [cfl] in Ec2. rewrite Ec2 in G3, M3. assert (CS2 := cfl_sim true c2). set (c3 := cfl true c2) in *. cbn [plug] in G3, M3.
          destruct (s_paint b3 (CR c3 B m u2) A p y1 S 0 G3) as (b4 & E4 & G4 & K4). rewrite E4. cbn [bind wp post]. exists 0%nat. split; [unfold c; cbn [mu]; destruct (k_color y) as [[|[| |]|]|]; lia|]. exists (CR (CR c3 B m u2) A p (with_color 0 y1)), d. fold W. fold S. cbn [plug] in *.
          assert (CS3 : csim c1 c3) by (eapply csim_trans; eassumption). split; [exact G4|]. split; [symmetry; exact ER|]. split; [|split; [eapply keepsb_trans; [exact K|eapply keepsb_trans; [exact K1|eapply keepsb_trans; [exact K2|eapply keepsb_trans; eassumption]]]|]].
          - rewrite <- EN3. symmetry. transitivity (ents (plug c2 (N B m u (N A p (with_color 0 y1) S)))); [apply ents_plug; ents_eq|]. apply sim_facts. apply sim_plug; [exact CS2|]. simt.
          - split; [eapply (marked_plug (CR c3 B m u2)); [|exact (M3 eq_refl)]; reflexivity|]. split; [rewrite <- JP; apply cpar_comp2; reflexivity|]. assert (Hu2 : k_color u2 = Some v) by (rewrite (core_color _ _ Cu2); exact Hu). split.
            + cbn [rtop]. split; [discriminate|]. destruct RT as [RT1 RT2]. split; [|apply (rtop_sim _ _ CS3 RT2)]. intros X. rewrite Hu2, <- Hy. apply RT1. apply (csim_facts _ _ CS3). exact X.
            + right. split; [reflexivity|]. split; [reflexivity|]. split; [discriminate|]. eapply (close_top c1 c3 y k v); try eassumption; [cbn [rb]; left; replace (k + 1 - 1) with k by lia; auto|reflexivity]. }
        assert (LR : red qr -> wp (b2 <- left_right_case b1 (Some j);; b3 <- flag_root true b2;; b4 <- paint 0 (Some p) b3;; Ret (Next (R := bst) (b4, Some i, 1))) (post b0 EN w x jp (mu c))).
        { intros X. destruct (red_color _ X) as (a & m & u & e & -> & Hu). destruct (lr_ok b1 c2 ql j z a m u e p y1 S v G1 Hy1) as (b2 & E2 & G2 & K2). rewrite E2. cbn [bind].
          cbn [rb] in Rqr. destruct Rqr as [(Y & _)|(_ & Ra & Re & Ba & Be)]; [congruence|]. eapply FIN; [exact G2|exact K2|reflexivity|exact Re|cbn [rb]; left; replace (k + 1 - 1) with k by lia; auto|exact Hz|]. rewrite <- EN2. apply ents_plug. ents_eq. }
        destruct ql as [|a m u e] eqn:Eql.
        * destruct (HR1 eq_refl) as [X|X]; [destruct X|]. exact (LR X).
        * rewrite <- Eql in *. destruct (k_color u) as [vu|] eqn:Eu; [|rewrite Eql in Rql; cbn [rb] in Rql; destruct Rql as [(Y & _)|(Y & _)]; congruence]. assert (Hvu : vu = 0 \/ vu = 1) by (rewrite Eql in Rql; cbn [rb] in Rql; destruct Rql as [(Y & _)|(Y & _)]; rewrite Eu in Y; injection Y as ->; auto).
          destruct Hvu as [-> | ->].
          -- assert (X : red qr). { destruct (HR1 eq_refl) as [X|X]; [|exact X]. rewrite Eql in X. cbn in X. congruence. } exact (LR X).
          -- rewrite Eql in *. destruct (ll_ok b1 c2 a m u e j z qr p y1 S v 0 G1 Hy1 Hz) as (b2 & E2 & G2 & K2). rewrite E2. cbn [bind].
             cbn [rb] in Rql. destruct Rql as [(Y & _)|(_ & Ra & Re & Ba & Be)]; [congruence|]. eapply FIN; [exact G2|exact K2|reflexivity|exact Rqr|cbn [rb]; left; replace (k + 1 - 1) with k by lia; auto|reflexivity|]. rewrite <- EN2. apply ents_plug. ents_eq.
      + (* no red child *) destruct (HR2 eq_refl) as [Bl Br]. destruct (s_paint b (CL c1 p y S) ql j z qr 1 G) as (b1 & E1 & G1 & K1). rewrite E1. cbn [bind plug] in *. rewrite (s_color b1 c1 _ p y S v G1 Hy). cbn [bind].
        assert (Rq1 : rb (N ql j (with_color 1 z) qr) k) by (cbn [rb]; right; auto 10). destruct AB as (_ & [(-> & HC)|(-> & HB & HC)]); cbn [Z.eqb Pos.eqb].
        * cbn [wp post]. exists (mu c1). split; [unfold c; cbn [mu clen]; rewrite Hy; pose proof (mu_le c1); lia|]. exists c1, (ccomp d (CR Top (N ql j (with_color 1 z) qr) p y)). cbv zeta. fold W. rewrite !plug_comp. fold S. cbn [plug root]. split; [exact G1|]. split; [reflexivity|].
          split; [rewrite <- EN1; unfold c; cbn [plug]; apply ents_plug; ents_eq|]. split; [eapply keepsb_trans; eassumption|]. split; [eapply marked_plug; [|exact MK]; reflexivity|]. split; [rewrite comp_assoc, <- JP; apply cpar_comp2; reflexivity|]. split; [apply RT|]. left. split; [reflexivity|]. split; [reflexivity|].
          exists (k + 1). split; [cbn [rb]; left; replace (k + 1 - 1) with k by lia; auto|]. split; [exact Hy|exact HC].
        * destruct (s_paint b1 c1 _ p y S 0 G1) as (b2 & E2 & G2 & K2). rewrite E2. cbn [bind wp post]. exists 0%nat. split; [unfold c; cbn [mu]; rewrite Hy; lia|]. exists (CR c1 (N ql j (with_color 1 z) qr) p (with_color 0 y)), d. fold W. fold S. cbn [plug]. split; [exact G2|]. split; [symmetry; exact ER|].
          split; [rewrite <- EN1; unfold c; cbn [plug]; apply ents_plug; ents_eq|]. split; [eapply keepsb_trans; [exact K|eapply keepsb_trans; eassumption]|]. split; [eapply marked_plug; [|exact MK]; reflexivity|]. split; [rewrite <- JP; apply cpar_comp2; reflexivity|]. split; [cbn [rtop]; split; [reflexivity|apply RT]|]. right. split; [reflexivity|]. split; [reflexivity|]. split; [discriminate|].
          destruct (rb_plug c1 (N (N ql j (with_color 1 z) qr) p (with_color 0 y) (plug d E)) (k + 1) HC) as (n & Hn & _); [cbn [rb]; left; replace (k + 1 - 1) with k by lia; auto|left; reflexivity|]. eauto.
    - (* red sibling *) destruct Rq as [(X & _)|(_ & Rql & Rqr & Bl & Br)]; [congruence|]. destruct AB as (_ & [(-> & HC)|(-> & _ & _)]); [|specialize (BQ eq_refl); cbn in BQ; congruence].
      destruct (s_flag b c S false G ltac:(discriminate)) as (b1 & E1 & G1 & K1 & _). rewrite E1. cbn [bind]. destruct (cfl_r false c1 p y (N ql j z qr)) as (y1 & Ec & Cy1). unfold c in G1. rewrite Ec in G1. assert (CS1 := cfl_sim false c1). set (c2 := cfl false c1) in *. cbn [plug] in G1.
      assert (EN2 : ents (plug c2 (N (N ql j z qr) p y1 S)) = EN). { rewrite <- EN1. symmetry. apply sim_facts. unfold c. cbn [plug]. apply sim_plug; [exact CS1|]. simt. }
      destruct (s_paint b1 c2 _ p y1 S 1 G1) as (b2 & E2 & G2 & K2). rewrite E2. cbn [bind]. destruct (s_paint b2 (CL c2 p (with_color 1 y1) S) ql j z qr 0 G2) as (b3 & E3 & G3 & K3). rewrite E3. cbn [bind]. rewrite (s_onleft_l b3 c2 ql j _ qr p _ S G3). cbn [bind]. cbn [plug] in G3.
      destruct (s_rot_right b3 c2 ql j _ qr p _ S G3) as (b4 & E4 & G4 & K4). rewrite E4. cbn [bind]. destruct (s_flag b4 (CR (CR c2 ql j (with_color 0 z)) qr p (with_color 1 y1)) S true G4 ltac:(discriminate)) as (b5 & E5 & G5 & K5 & M5). rewrite E5. cbn [bind wp post].
      exists 1%nat. split; [unfold c; cbn [mu clen]; rewrite Hy; lia|]. set (c3 := CR (CR c2 ql j (with_color 0 z)) qr p (with_color 1 y1)) in *. assert (CS3 := cfl_sim true c3). exists (cfl true c3), d. cbv zeta. fold W. fold S. split; [exact G5|]. split; [symmetry; exact ER|].
      split; [rewrite (sim_ents _ _ S CS3), <- EN2; unfold c3; cbn [plug]; apply ents_plug; ents_eq|]. split; [eapply keepsb_trans; [exact K|eapply keepsb_trans; [exact K1|eapply keepsb_trans; [exact K2|eapply keepsb_trans; [exact K3|eapply keepsb_trans; eassumption]]]]|].
      split; [apply M5; reflexivity|]. split; [rewrite <- JP; apply cpar_comp2; reflexivity|]. split; [apply (rtop_sim _ _ CS3); unfold c3; cbn [rtop]; split; [discriminate|]; split; [reflexivity|]; apply (rtop_sim _ _ CS1), RT|].
      left. split; [reflexivity|]. split; [reflexivity|]. exists k. split; [exact RS|]. split; [exact BS|]. apply (crb_sim _ _ _ CS3). unfold c3. cbn [crb]. split; [exact Rqr|]. right. split; [reflexivity|]. split; [exact Br|]. split; [reflexivity|]. split; [exact Rql|]. left. split; [reflexivity|]. apply (crb_sim _ _ _ CS1). exact HC.
  Qed.
  Lemma fix_ok (b : bst) c w x jp n : let W := N E w x E in slim b (plug c W) -> marked (plug c W) -> cpar c = Some jp -> k_color x = Some 0 -> rb (plug c W) n -> black (plug c W) ->
    exists b', fix_deletion b (Some w) = Ret b' /\ fixedd b (ents (plug c W)) w x jp b'.
  Proof.
    intros W G MK JP Hx RB BK. rewrite fix_unfold. rewrite (s_color b c E w x E 0 G Hx). cbn [bind]. set (EN := ents (plug c W)).
    assert (WW : wp (while_loop (2 * fuel (b_mem b)) dbody (b, Some w, 0)) (fixedd b EN w x jp)).
    { eapply (wp_while_g (spotd b EN w x jp)) with (n := mu c).
      - intros n0 [[b1 ni] color] (c1 & d & HS). cbv zeta in HS. destruct HS as (G1 & -> & EN1 & K1 & M1 & JP1 & RT & CASE).
        assert (DONE : black (plug c1 (plug d E)) -> (exists m, rb (plug c1 (plug d E)) m) -> fixedd b EN w x jp b1). { intros Q1 Q2. exists (ccomp d c1). cbv zeta. rewrite !plug_comp. auto 10. }
        destruct CASE as [(-> & -> & k & RS & BS & HC)|(-> & -> & NT & m & RM)].
        + destruct c1 as [|c1 p y q|c1 q p y].
          * unfold dbody. assert (ER : root (plug d (N E w x E)) = b_root b1) by (symmetry; apply (proj2 (proj2 (sl_at _ _ G1)))). rewrite ER, oeqb_yes. cbn [negb andb wp]. apply DONE; [exact BS|cbn [plug]; eauto].
          * destruct HC as (Rq & HC). assert (AB : exists v, above c1 y k v /\ (v = 1 -> black q)). { destruct HC as [(A & B)|(A & B & C & F)]; [exists 0|exists 1]; (split; [split; [exact A|auto]|]); [discriminate|auto]. } destruct AB as (v & AB & BQ).
            assert (Q := step_l b EN w x jp b1 c1 p y q d k v G1 EN1 K1 M1 JP1 RT RS BS Rq AB BQ). eapply wp_mono; [exact Q|]. intros [s|r]; cbn [post]; [|tauto]. intros (n' & A & B). eauto.
          * destruct HC as (Rq & HC). assert (AB : exists v, above c1 y k v /\ (v = 1 -> black q)). { destruct HC as [(A & B)|(A & B & C & F)]; [exists 0|exists 1]; (split; [split; [exact A|auto]|]); [discriminate|auto]. } destruct AB as (v & AB & BQ).
            assert (Q := step_r b EN w x jp b1 c1 p y q d k v G1 EN1 K1 M1 JP1 RT RS BS Rq AB BQ). eapply wp_mono; [exact Q|]. intros [s|r]; cbn [post]; [|tauto]. intros (n' & A & B). eauto.
        + unfold dbody. rewrite andb_false_r. cbn [wp]. apply DONE; [apply rtop_black; [exact RT|intros ->; congruence]|eauto].
      - exists c, Top. cbv zeta. cbn [plug ccomp root]. destruct (rb_unplug c W n RB BK) as (m & HC & RW & _). unfold W in RW. cbn [rb] in RW. destruct RW as [(_ & Y & _)|(Y & _)]; [|congruence]. assert (m = 0 + 1) by lia. subst m. split; [exact G|]. split; [reflexivity|]. split; [reflexivity|]. split; [apply keepsb_refl|]. split; [exact MK|]. split; [exact JP|]. split; [apply (black_rtop c W BK)|].
        left. split; [reflexivity|]. split; [reflexivity|]. exists 0. cbn [rb black]. auto.
      - pose proof (mu_le c). assert (HF := clen_fuel _ _ _ _ _ _ _ (sl_at _ _ G)). lia. }
    apply wp_ex in WW as (b' & E1 & H). exists b'. auto.
  Qed.
End RbDel.
