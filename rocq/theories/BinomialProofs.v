(** Proofs for BinomialHeap: shape (binomial trees of strictly increasing order), heap order, contents. *)
From Verif Require Import Base BinomialModel BinomialSpec.

Section B.
  Context {D : Type}.
  Notation bnode := (bnode D). Notation bheap := (bheap D).

  (** [bt n t]: t is the binomial tree of order n, heap ordered *)
  Inductive bt : nat -> bnode -> Prop :=
  | bt_intro k d ch : (forall i c, nth_error ch i = Some c -> bt i c /\ k <= b_key c) -> bt (length ch) (BN k d ch).
  (** well-formed root list whose orders are all >= lo *)
  Definition tree_ok (t : Z * bnode) : Prop := 0 <= fst t /\ bt (Z.to_nat (fst t)) (snd t).
  Definition bh_ok (h : bheap) : Prop := increasing (map fst h) /\ Forall tree_ok h.

  Lemma increasing_app l1 l2 : increasing (l1 ++ l2) <-> increasing l1 /\ increasing l2 /\ (forall x y, In x l1 -> In y l2 -> x < y).
  Proof.
    induction l1 as [|a l1 IH]; simpl; [firstorder|]. rewrite IH, Forall_app, !Forall_forall. split.
    - intros ((A & B) & C & E & F). repeat split; auto. intros x y [<- | Hx] Hy; auto.
    - intros ((A & B) & C & E). repeat split; auto.
  Qed.
  Lemma last_tree_snoc (l : bheap) t : last_tree (l ++ [t]) = Some t.
  Proof. unfold last_tree. rewrite rev_app_distr. reflexivity. Qed.
  Lemma removelast_snoc (V : Type) (l : list V) t : removelast (l ++ [t]) = l.
  Proof. rewrite removelast_app by discriminate. simpl. apply app_nil_r. Qed.
  Lemma bt_len n t : bt n t -> length (b_children t) = n.
  Proof. destruct 1; reflexivity. Qed.
  Lemma bt_inv n k d ch : bt n (BN k d ch) -> n = length ch /\ forall i c, nth_error ch i = Some c -> bt i c /\ k <= b_key c.
  Proof. inversion 1; subst; auto. Qed.

  Lemma add_sub_ok t1 t2 : tree_ok t1 -> tree_ok t2 -> fst t1 = fst t2 -> b_key (snd t1) <= b_key (snd t2) ->
    wp (add_sub_tree t1 t2) (fun t => tree_ok t /\ fst t = fst t1 + 1 /\ Permutation (b_elems (snd t1) ++ b_elems (snd t2)) (b_elems (snd t))).
  Proof.
    intros [H1 B1] [H2 B2] E K. destruct t1 as [o1 [k d ch]], t2 as [o2 t2]. cbn [fst snd] in *. unfold add_sub_tree. cbn [fst snd].
    destruct (Z.eqb_spec o1 o2); [|contradiction]. simpl negb. cbn [wp fst snd]. split; [|split; [reflexivity|]].
    - split; [cbn [fst]; lia|]. cbn [fst snd]. apply bt_inv in B1. destruct B1 as [L B1].
      replace (Z.to_nat (o1 + 1)) with (length (ch ++ [t2])) by (rewrite app_length; simpl; lia).
      constructor. intros i c Hc. destruct (Nat.lt_ge_cases i (length ch)).
      + rewrite nth_error_app1 in Hc by assumption. apply B1. exact Hc.
      + rewrite nth_error_app2 in Hc by assumption. destruct (i - length ch)%nat eqn:Ei; [|destruct n; discriminate].
        injection Hc as <-. split; [|exact K]. replace i with (Z.to_nat o2) by lia. exact B2.
    - simpl. rewrite flat_map_app. simpl. rewrite app_nil_r. reflexivity.
  Qed.
  Lemma merge_tree_ok t1 t2 : tree_ok t1 -> tree_ok t2 -> fst t1 = fst t2 ->
    wp (merge_tree t1 t2) (fun t => tree_ok t /\ fst t = fst t1 + 1 /\ Permutation (b_elems (snd t1) ++ b_elems (snd t2)) (b_elems (snd t))).
  Proof.
    intros H1 H2 E. unfold merge_tree. destruct (Z.leb_spec (b_key (snd t1)) (b_key (snd t2))); [apply add_sub_ok; assumption|].
    eapply wp_mono; [apply add_sub_ok; auto; lia|]. intros t (A & B & C). split; [exact A|]. split; [lia|].
    rewrite Permutation_app_comm. exact C.
  Qed.

  Lemma elems_app h1 h2 : @bh_elems D (h1 ++ h2) = bh_elems h1 ++ bh_elems h2.
  Proof. apply flat_map_app. Qed.

  (** the merge invariant: new is well formed and none of its orders exceeds [lo] *)
  Definition below (lo : Z) (n : bheap) : Prop := forall t, In t n -> fst t <= lo.
  Lemma merge_last_ok n t : bh_ok n -> tree_ok t -> below (fst t) n ->
    wp (merge_last n t) (fun n' => bh_ok n' /\ below (fst t + 1) n' /\ (below (fst t - 1) n -> below (fst t) n') /\ Permutation (bh_elems n ++ b_elems (snd t)) (bh_elems n')).
  Proof.
    intros [I F] Ht B. unfold merge_last.
    destruct (list_eq_dec Z.eq_dec (map fst n) []) as [En|En].
    { destruct n; [|discriminate]. cbn [last_tree rev app wp]. split; [split; [simpl; auto|constructor; auto]|]. split; [intros x [<- | []]; lia|].
      split; [intros _ x [<- | []]; lia|]. unfold bh_elems. simpl. rewrite app_nil_r. reflexivity. }
    assert (exists n0 u, n = n0 ++ [u]) as (n0 & u & ->).
    { destruct (@exists_last _ n) as (a & b & ->); [destruct n; [contradiction|discriminate]|eauto]. }
    rewrite last_tree_snoc. rewrite map_app in I. apply increasing_app in I. destruct I as (I1 & _ & I2).
    apply Forall_app in F. destruct F as [F1 F2]. inversion F2 as [|? ? Fu _]; subst.
    assert (Bu : fst u <= fst t) by (apply B, in_or_app; right; left; reflexivity).
    assert (B0 : forall x, In x n0 -> fst x < fst u) by (intros x Hx; apply I2; [apply in_map, Hx|left; reflexivity]).
    destruct (Z.eqb_spec (fst u) (fst t)) as [Eo|Eo].
    - apply wp_bind. eapply wp_mono; [apply merge_tree_ok; eauto|]. intros t' (T1 & T2 & T3). cbn [wp].
      rewrite removelast_snoc. split; [|split; [|split]].
      + split; [rewrite map_app; apply increasing_app; split; [exact I1|split; [simpl; auto|]]|].
        * intros x y Hx [<- | []]. apply in_map_iff in Hx. destruct Hx as (w & <- & Hw). specialize (B0 w Hw). lia.
        * apply Forall_app; split; [exact F1|]. constructor; [exact T1|constructor].
      + intros x Hx. apply in_app_iff in Hx. destruct Hx as [Hx|[<- | []]]; [specialize (B0 x Hx)|]; lia.
      + intros HB. specialize (HB u ltac:(apply in_or_app; right; left; reflexivity)). lia.
      + rewrite !elems_app. change (bh_elems [u]) with (b_elems (snd u) ++ []). change (bh_elems [t']) with (b_elems (snd t') ++ []).
        rewrite !app_nil_r, <- app_assoc. apply Permutation_app_head. exact T3.
    - cbn [wp]. split; [|split; [|split]].
      + split.
        * rewrite !map_app. apply increasing_app. split; [apply increasing_app; split; [exact I1|split; [simpl; auto|exact I2]]|].
          split; [simpl; auto|]. intros x y Hx [<- | []]. apply in_app_iff in Hx. destruct Hx as [Hx|[<- | []]]; [|lia].
          apply in_map_iff in Hx. destruct Hx as (w & <- & Hw). specialize (B0 w Hw). lia.
        * apply Forall_app; split; [apply Forall_app; split; auto|constructor; auto].
      + intros x Hx. apply in_app_iff in Hx. destruct Hx as [Hx|[<- | []]]; [specialize (B x Hx)|]; lia.
      + intros _ x Hx. apply in_app_iff in Hx. destruct Hx as [Hx|[<- | []]]; [specialize (B x Hx)|]; lia.
      + rewrite (elems_app (n0 ++ [u]) [t]). change (bh_elems [t]) with (b_elems (snd t) ++ []). rewrite app_nil_r. reflexivity.
  Qed.

  (** orders of [l] are >= those of [n] *)
  Definition sep (n l : bheap) : Prop := forall x y, In x n -> In y l -> fst x <= fst y.
  Lemma ok_cons t l : bh_ok (t :: l) -> bh_ok l /\ tree_ok t /\ forall y, In y l -> fst t < fst y.
  Proof.
    intros [I F]. simpl in I. destruct I as [I1 I2]. inversion F; subst. rewrite Forall_forall in I1.
    split; [split; assumption|]. split; [assumption|]. intros y Hy. apply I1, in_map, Hy.
  Qed.
  Lemma drain_ok l : forall n, bh_ok n -> bh_ok l -> sep n l ->
    wp (forM l (fun t n => merge_last n t) n) (fun n' => bh_ok n' /\ Permutation (bh_elems n ++ bh_elems l) (bh_elems n')).
  Proof.
    induction l as [|t l IH]; intros n Hn Hl S.
    - cbn. split; [exact Hn|]. rewrite app_nil_r. reflexivity.
    - apply ok_cons in Hl. destruct Hl as (Hl & Ht & Hlt). cbn [forM]. apply wp_bind.
      eapply wp_mono; [apply merge_last_ok; [exact Hn|exact Ht|intros x Hx; apply S; [exact Hx|left; reflexivity]]|].
      intros n' (A & B & _ & P). eapply wp_mono; [apply IH; [exact A|exact Hl|]|].
      + intros x y Hx Hy. specialize (B x Hx). specialize (Hlt y Hy). lia.
      + intros n'' (A' & P'). split; [exact A'|]. rewrite <- P', <- P, <- app_assoc. reflexivity.
  Qed.

  Lemma merge_ok h1 h2 : bh_ok h1 -> bh_ok h2 ->
    wp (bh_merge h1 h2) (fun h => bh_ok h /\ Permutation (bh_elems h1 ++ bh_elems h2) (bh_elems h)).
  Proof.
    intros H1 H2. unfold bh_merge. apply wp_bind.
    apply (wp_mono _ _ (fun '(n, l1, l2) => bh_ok n /\ bh_ok l1 /\ bh_ok l2 /\ sep n l1 /\ sep n l2 /\ (l1 = [] \/ l2 = []) /\
        Permutation (bh_elems h1 ++ bh_elems h2) (bh_elems n ++ bh_elems l1 ++ bh_elems l2))).
    - apply (wp_while _ _ (fun '(n, l1, l2) => bh_ok n /\ bh_ok l1 /\ bh_ok l2 /\ sep n l1 /\ sep n l2 /\
        Permutation (bh_elems h1 ++ bh_elems h2) (bh_elems n ++ bh_elems l1 ++ bh_elems l2))
        (fun '(n, l1, l2) => (length l1 + length l2)%nat)); [|repeat split; auto; try (apply H1 || apply H2); intros x y []|lia].
      intros [[n l1] l2] (Hn & Hl1 & Hl2 & S1 & S2 & P).
      destruct l1 as [|t1 l1]; [cbn; auto 10|]. destruct l2 as [|t2 l2]; [cbn; auto 10|].
      pose proof (ok_cons _ _ Hl1) as (Ol1 & T1 & L1). pose proof (ok_cons _ _ Hl2) as (Ol2 & T2 & L2).
      destruct (Z.eqb_spec (fst t1) (fst t2)) as [E|E].
      + apply wp_bind. eapply wp_mono; [apply merge_tree_ok; assumption|]. intros t (T & Eo & Pt). apply wp_bind.
        assert (Bt : below (fst t - 1) n) by (intros x Hx; specialize (S1 x t1 Hx ltac:(left; reflexivity)); lia).
        eapply wp_mono; [apply merge_last_ok; [exact Hn|exact T|intros x Hx; specialize (Bt x Hx); lia]|].
        intros n' (A & _ & B & Pn). specialize (B Bt). cbn [wp]. split; [|cbn [length]; lia].
        split; [exact A|]. split; [exact Ol1|]. split; [exact Ol2|].
        split; [intros x y Hx Hy; specialize (B x Hx); specialize (L1 y Hy); lia|].
        split; [intros x y Hx Hy; specialize (B x Hx); specialize (L2 y Hy); lia|].
        rewrite P, <- Pn, <- Pt. unfold bh_elems. simpl. rewrite <- !app_assoc. apply Permutation_app_head, Permutation_app_head.
        rewrite !app_assoc. apply Permutation_app_tail, Permutation_app_comm.
      + destruct (Z.ltb_spec (fst t1) (fst t2)) as [Hlt|Hlt].
        * apply wp_bind. eapply wp_mono; [apply merge_last_ok; [exact Hn|exact T1|intros x Hx; apply S1; [exact Hx|left; reflexivity]]|].
          intros n' (A & B & _ & Pn). cbn [wp]. split; [|cbn [length]; lia].
          split; [exact A|]. split; [exact Ol1|]. split; [exact Hl2|].
          split; [intros x y Hx Hy; specialize (B x Hx); specialize (L1 y Hy); lia|].
          split; [intros x y Hx [<- | Hy]; specialize (B x Hx); [|specialize (L2 y Hy)]; lia|].
          rewrite P, <- Pn. unfold bh_elems. simpl. rewrite <- !app_assoc. reflexivity.
        * apply wp_bind. eapply wp_mono; [apply merge_last_ok; [exact Hn|exact T2|intros x Hx; apply S2; [exact Hx|left; reflexivity]]|].
          intros n' (A & B & _ & Pn). cbn [wp]. split; [|cbn [length]; lia].
          split; [exact A|]. split; [exact Hl1|]. split; [exact Ol2|].
          split; [intros x y Hx [<- | Hy]; specialize (B x Hx); [|specialize (L1 y Hy)]; lia|].
          split; [intros x y Hx Hy; specialize (B x Hx); specialize (L2 y Hy); lia|].
          rewrite P, <- Pn. unfold bh_elems. simpl. rewrite <- !app_assoc. apply Permutation_app_head.
          rewrite (app_assoc (b_elems (snd t1))). rewrite Permutation_app_swap_app. apply Permutation_app_head. rewrite <- app_assoc. reflexivity.
    - intros [[n l1] l2] (Hn & Hl1 & Hl2 & S1 & S2 & O & P).
      destruct O as [-> | ->].
      + cbn [forM bind]. eapply wp_mono; [apply drain_ok; assumption|]. intros h (A & Q). split; [exact A|]. rewrite P, <- Q. reflexivity.
      + apply wp_bind. eapply wp_mono; [apply drain_ok; assumption|]. intros h (A & Q). cbn. split; [exact A|]. rewrite P, <- Q.
        simpl. rewrite app_nil_r. reflexivity.
  Qed.

  Lemma insert_ok h k d : bh_ok h -> wp (bh_insert h k d) (fun h' => bh_ok h' /\ Permutation ((k, d) :: bh_elems h) (bh_elems h')).
  Proof.
    intros H. unfold bh_insert. eapply wp_mono; [apply merge_ok; [exact H|]|].
    - split; [simpl; auto|]. constructor; [|constructor]. split; [simpl; lia|]. simpl. apply (bt_intro k d []). intros [|i] c; discriminate.
    - intros h' (A & P). split; [exact A|]. rewrite <- P. change (bh_elems [(0, BN k d [])]) with [(k, d)]. apply Permutation_cons_append.
  Qed.

  Lemma bnode_rect' (P : bnode -> Prop) : (forall k d ch, (forall c, In c ch -> P c) -> P (BN k d ch)) -> forall t, P t.
  Proof.
    intros H. fix IH 1. intros [k d ch]. apply H. induction ch as [|c ch IHc]; intros x Hx; [destruct Hx|].
    destruct Hx as [<- | Hx]; [apply IH|apply IHc; exact Hx].
  Qed.
  (** every key below a root is >= the root's *)
  Lemma bt_least t : forall n, bt n t -> forall x, In x (b_elems t) -> b_key t <= fst x.
  Proof.
    induction t as [k d ch IH] using bnode_rect'. intros n B x Hx. apply bt_inv in B. destruct B as [_ B]. simpl in Hx.
    destruct Hx as [<- | Hx]; [simpl; lia|]. apply in_flat_map in Hx. destruct Hx as (c & Hc & Hx). simpl b_key.
    destruct (In_nth_error _ _ Hc) as [i Hi]. destruct (B i c Hi) as [Bc Kc]. specialize (IH c Hc i Bc x Hx). lia.
  Qed.

  Lemma find_loop l : forall m0 i0 i pre, 
    (forall x, In x pre -> b_key m0 <= b_key (snd x)) -> (exists o, nth_error (pre ++ l) i0 = Some (o, m0)) -> i = length pre ->
    wp (forM l (fun tree '(min_node, idx) =>
        match min_node with
        | None => Ret (Some (snd tree, idx), S idx)
        | Some (m, mi) => if b_key (snd tree) <? b_key m then Ret (Some (snd tree, idx), S idx) else Ret (Some (m, mi), S idx)
        end) (Some (m0, i0), i)) (fun r => exists m mi, fst r = Some (m, mi) /\ (exists o, nth_error (pre ++ l) mi = Some (o, m)) /\
          forall x : Z * bnode, In x (pre ++ l) -> b_key m <= b_key (snd x)).
  Proof.
    induction l as [|t l IH]; intros m0 i0 i pre Hm Hi Ei.
    - cbn. exists m0, i0. split; [reflexivity|]. split; [exact Hi|]. rewrite app_nil_r. exact Hm.
    - cbn [forM]. destruct (Z.ltb_spec (b_key (snd t)) (b_key m0)); cbn [bind].
      + replace (pre ++ t :: l) with ((pre ++ [t]) ++ l) by (rewrite <- app_assoc; reflexivity).
        apply IH.
        * intros x Hx. apply in_app_iff in Hx. destruct Hx as [Hx|[<- | []]]; [specialize (Hm x Hx)|]; lia.
        * exists (fst t). rewrite <- app_assoc. rewrite nth_error_app2 by lia. replace (i - length pre)%nat with 0%nat by lia. simpl. destruct t; reflexivity.
        * rewrite app_length. simpl. lia.
      + replace (pre ++ t :: l) with ((pre ++ [t]) ++ l) by (rewrite <- app_assoc; reflexivity).
        apply IH.
        * intros x Hx. apply in_app_iff in Hx. destruct Hx as [Hx|[<- | []]]; [apply Hm; exact Hx|lia].
        * rewrite <- app_assoc. exact Hi.
        * rewrite app_length. simpl. lia.
  Qed.
  Lemma find_min_ok h : bh_ok h -> h <> [] ->
    wp (bh_find_minimum h) (fun '(m, mi) => (exists o, nth_error h mi = Some (o, m)) /\ least (b_key m, b_data m) (bh_elems h)).
  Proof.
    intros [_ F] Hne. destruct h as [|t h]; [contradiction|]. unfold bh_find_minimum. apply wp_bind. cbn [forM bind].
    eapply wp_mono; [apply (find_loop h (snd t) 0%nat 1%nat [t])|].
    - intros x [<- | []]. lia.
    - exists (fst t). destruct t; reflexivity.
    - reflexivity.
    - intros r (m & mi & Er & Hm & HL). rewrite Er. cbn [wp]. split; [exact Hm|].
      intros x Hx. apply (in_flat_map (fun t : Z * bnode => b_elems (snd t))) in Hx. destruct Hx as (u & Hu & Hx). cbn [fst].
      rewrite Forall_forall in F. destruct (F u Hu) as [_ B]. pose proof (bt_least _ _ B x Hx). specialize (HL u Hu). lia.
  Qed.

  Lemma child_trees_ok ch : forall k0 o, 0 <= o -> (forall i c, nth_error ch i = Some c -> bt (Z.to_nat o + i) c /\ k0 <= b_key c) ->
    bh_ok (child_trees o ch) /\ bh_elems (child_trees o ch) = flat_map b_elems ch /\ forall t, In t (child_trees o ch) -> o <= fst t.
  Proof.
    induction ch as [|c ch IH]; intros k0 o Ho H; simpl.
    - repeat split; auto; try constructor. intros t [].
    - destruct (IH k0 (o + 1)) as ((I & F) & E & L); [lia| |].
      { intros i x Hx. replace (Z.to_nat (o + 1) + i)%nat with (Z.to_nat o + S i)%nat by lia. apply H. exact Hx. }
      split; [split|split].
      + simpl. split; [|exact I]. apply Forall_forall. intros y Hy. apply in_map_iff in Hy. destruct Hy as (u & <- & Hu). specialize (L u Hu). lia.
      + constructor; [|exact F]. split; [exact Ho|]. simpl. destruct (H 0%nat c eq_refl) as [B _]. rewrite Nat.add_0_r in B. exact B.
      + unfold bh_elems in *. simpl. rewrite E. reflexivity.
      + intros t [<- | Ht]; [simpl; lia|]. specialize (L t Ht). lia.
  Qed.
  Lemma remove_at (h : bheap) i t : nth_error h i = Some t -> h = firstn i h ++ t :: skipn (S i) h.
  Proof.
    revert i. induction h as [|a h IH]; intros [|i] H; try discriminate; simpl in *; [congruence|]. f_equal. apply IH. exact H.
  Qed.
  Lemma ok_remove h1 t h2 : bh_ok (h1 ++ t :: h2) -> bh_ok (h1 ++ h2) /\ tree_ok t.
  Proof.
    intros [I F]. rewrite map_app in I. apply increasing_app in I. destruct I as (I1 & I2 & I3). simpl in I2. destruct I2 as [_ I2].
    apply Forall_app in F. destruct F as [F1 F2]. inversion F2; subst. split; [|assumption]. split.
    - rewrite map_app. apply increasing_app. repeat split; auto. intros x y Hx Hy. apply I3; [exact Hx|right; exact Hy].
    - apply Forall_app; auto.
  Qed.

  Lemma delete_min_ok h : bh_ok h -> h <> [] ->
    exists m mi h', bh_find_minimum h = Ret (m, mi) /\ bh_delete_minimum h = Ret h' /\ bh_ok h' /\
      Permutation (bh_elems h) ((b_key m, b_data m) :: bh_elems h') /\ least (b_key m, b_data m) (bh_elems h).
  Proof.
    intros H Hne. pose proof (find_min_ok h H Hne) as W. apply wp_ex in W. destruct W as ([m mi] & Ef & (o & Hm) & L).
    exists m, mi. unfold bh_delete_minimum. rewrite Ef. cbn [bind].
    pose proof (remove_at h mi _ Hm) as Eh. rewrite Eh in H. apply ok_remove in H. destruct H as [Hr Ht].
    destruct m as [k d ch]. destruct Ht as [Ho Hb]. cbn [fst snd] in *. apply bt_inv in Hb. destruct Hb as [Lc Hb].
    destruct (child_trees_ok ch k 0) as (Oc & Ec & _); [lia|exact Hb|]. cbn [b_children].
    pose proof (merge_ok _ _ Hr Oc) as W. apply wp_ex in W. destruct W as (h' & Em & Oh & P).
    exists h'. split; [reflexivity|]. split; [exact Em|]. split; [exact Oh|]. split; [|exact L]. cbn [b_key b_data].
    rewrite <- P, Ec. rewrite Eh at 1. rewrite !elems_app. change (bh_elems ((o, BN k d ch) :: skipn (S mi) h)) with ((k, d) :: flat_map b_elems ch ++ bh_elems (skipn (S mi) h)).
    rewrite <- app_assoc. symmetry. apply Permutation_cons_app. apply Permutation_app_head. apply Permutation_app_comm.
  Qed.

  (** ** decrease_key *)
  Lemma at_upd (l : list bnode) i c : nth_error l i = Some c -> l = firstn i l ++ c :: skipn (S i) l.
  Proof.
    revert i. induction l as [|a l IH]; intros [|i] H; try discriminate; simpl in *; [congruence|]. f_equal. apply IH. exact H.
  Qed.
  Lemma upd_split (V : Type) (l : list V) i c c' : nth_error l i = Some c -> upd l i c' = firstn i l ++ c' :: skipn (S i) l.
  Proof.
    revert i. induction l as [|a l IH]; intros [|i] H; try discriminate; simpl in *; [congruence|]. f_equal. apply IH. exact H.
  Qed.
  Lemma nth_upd (V : Type) (l : list V) i c' j c : nth_error (upd l i c') j = Some c -> (i = j /\ c = c') \/ (i <> j /\ nth_error l j = Some c).
  Proof.
    revert i j. induction l as [|a l IH]; intros i j H; [destruct i, j; discriminate|].
    destruct i as [|i], j as [|j]; simpl in *; try (injection H as <-); auto.
    destruct (IH _ _ H) as [[-> ->]|[A B]]; [left; auto|right; split; [congruence|exact B]].
  Qed.
  Lemma upd_length' (V : Type) (l : list V) i c : length (upd l i c) = length l.
  Proof. revert i; induction l as [|a l IH]; intros [|i]; simpl; auto. Qed.

  Lemma decrease_ok nk : forall path t n node, bt n t -> b_at t path = Some node -> nk < b_key node ->
    exists t' active, b_decrease t path nk = Some (t', active) /\ bt n t' /\
      (active = true -> forall c, In c (b_children t') -> b_key t <= b_key c) /\
      (active = false -> b_key t' = b_key t) /\
      exists rest, Permutation (b_elems t) ((b_key node, b_data node) :: rest) /\ Permutation (b_elems t') ((nk, b_data node) :: rest).
  Proof.
    induction path as [|i p IH]; intros [k d ch] n node B Hat Hlt; cbn [b_at b_children] in Hat.
    - injection Hat as <-. cbn [b_key b_data] in *. apply bt_inv in B. destruct B as [-> B]. cbn [b_decrease].
      exists (BN nk d ch), true. split; [reflexivity|]. split; [constructor; intros j c Hc; destruct (B j c Hc); split; [assumption|lia]|].
      split; [|split; [discriminate|exists (flat_map b_elems ch); simpl; split; reflexivity]].
      intros _ c Hc. cbn in Hc. destruct (In_nth_error _ _ Hc) as [j Hj]. apply (B j c Hj).
    - destruct (nth_error ch i) as [c|] eqn:Hc; [|discriminate]. apply bt_inv in B. destruct B as [-> B].
      destruct (B i c Hc) as [Bc Kc].
      destruct (IH c i node Bc Hat Hlt) as (c' & act & E & Bc' & Ek & Ea & rest & P1 & P2).
      cbn [b_decrease]. rewrite Hc, E. destruct c' as [ck cd cch].
      assert (Pel : forall c1 (r : list (Z * D)), Permutation (b_elems c1) r ->
         Permutation (flat_map b_elems (upd ch i c1)) (r ++ flat_map b_elems (firstn i ch ++ skipn (S i) ch))).
      { intros c1 r Hr. rewrite (upd_split _ ch i c c1 Hc). rewrite !flat_map_app. simpl. rewrite Hr.
        rewrite !app_assoc. apply Permutation_app_tail, Permutation_app_comm. }
      pose proof (Pel c _ (Permutation_refl _)) as Pc. 
      replace (upd ch i c) with ch in Pc by (rewrite (upd_split _ ch i c c Hc); apply at_upd; exact Hc).
      set (oth := flat_map b_elems (firstn i ch ++ skipn (S i) ch)) in *.
      cbn [b_key b_children] in *.
      destruct (act && (ck <? k)) eqn:Eact.
      + apply andb_true_iff in Eact. destruct Eact as [-> Hck]. apply Z.ltb_lt in Hck.
        apply bt_inv in Bc'. destruct Bc' as [Li Bc'].
        assert (Q : Permutation ((ck, cd) :: flat_map b_elems cch) ((nk, b_data node) :: rest)) by exact P2.
        eexists _, true. split; [reflexivity|]. split; [|split; [|split; [discriminate|]]].
        * rewrite <- (upd_length' _ ch i (BN k d cch)). constructor. intros j x Hx. apply nth_upd in Hx.
          destruct Hx as [[<- ->]|[Hj Hx]].
          -- split; [|cbn; lia]. rewrite Li. constructor. intros j y Hy. destruct (Bc' j y Hy) as [By Ky]. split; [exact By|].
             specialize (Ek eq_refl y (nth_error_In _ _ Hy)). lia.
          -- destruct (B j x Hx). split; [assumption|lia].
        * intros _ x Hx. cbn in Hx. destruct (In_nth_error _ _ Hx) as [j Hj]. apply nth_upd in Hj.
          destruct Hj as [[<- ->]|[Hj' Hj]]; [cbn; lia|]. apply (B j x Hj).
        * exists ((k, d) :: rest ++ oth). split.
          -- change (Permutation ((k, d) :: flat_map b_elems ch) ((b_key node, b_data node) :: (k, d) :: rest ++ oth)).
             rewrite Pc, P1. simpl. apply perm_swap.
          -- change (Permutation ((ck, cd) :: flat_map b_elems (upd ch i (BN k d cch))) ((nk, b_data node) :: (k, d) :: rest ++ oth)).
             rewrite (Pel (BN k d cch) ((k, d) :: flat_map b_elems cch)) by reflexivity.
             simpl. rewrite perm_swap. rewrite (perm_swap (k, d)). apply perm_skip.
             change (Permutation (((ck, cd) :: flat_map b_elems cch) ++ oth) (((nk, b_data node) :: rest) ++ oth)).
             apply Permutation_app_tail. exact Q.
      + eexists _, false. split; [reflexivity|]. split; [|split; [discriminate|split; [reflexivity|]]].
        * rewrite <- (upd_length' _ ch i (BN ck cd cch)). constructor. intros j x Hx. apply nth_upd in Hx.
          destruct Hx as [[<- ->]|[Hj Hx]]; [|apply (B j x Hx)]. split; [exact Bc'|]. cbn.
          destruct act; [apply andb_false_iff in Eact; destruct Eact as [Eact|Eact]; [discriminate|apply Z.ltb_ge in Eact; lia]|].
          rewrite Ea by reflexivity. exact Kc.
        * exists ((k, d) :: rest ++ oth). split.
          -- change (Permutation ((k, d) :: flat_map b_elems ch) ((b_key node, b_data node) :: (k, d) :: rest ++ oth)).
             rewrite Pc, P1. simpl. apply perm_swap.
          -- change (Permutation ((k, d) :: flat_map b_elems (upd ch i (BN ck cd cch))) ((nk, b_data node) :: (k, d) :: rest ++ oth)).
             rewrite (Pel _ _ P2). simpl. apply perm_swap.
  Qed.

  Lemma decrease_key_ok h i path node nk : bh_ok h -> bh_node h i path = Some node -> nk < b_key node ->
    exists h' rest, bh_decrease_key h i path nk = Ret h' /\ bh_ok h' /\ Permutation (bh_elems h) ((b_key node, b_data node) :: rest) /\
      Permutation (bh_elems h') ((nk, b_data node) :: rest).
  Proof.
    intros H Hn Hlt. unfold bh_node in Hn. destruct (nth_error h i) as [[o t]|] eqn:Hi; [|discriminate]. cbn [snd] in Hn.
    pose proof (remove_at h i _ Hi) as Eh. destruct H as [I F].
    assert (Ht : tree_ok (o, t)) by (rewrite Forall_forall in F; apply F; eapply nth_error_In; eauto).
    destruct Ht as [Ho Hb]. cbn [fst snd] in *.
    destruct (decrease_ok nk path t _ node Hb Hn Hlt) as (t' & act & E & Bt & _ & _ & rest & P1 & P2).
    unfold bh_decrease_key. rewrite Hi, Hn, E. destruct (Z.leb_spec (b_key node) nk); [lia|].
    pose proof (upd_split _ h i _ (o, t') Hi) as Eu.
    exists (upd h i (o, t')), (rest ++ bh_elems (firstn i h ++ skipn (S i) h)). split; [reflexivity|]. split.
    - split.
      + rewrite Eu. rewrite Eh in I. rewrite map_app in I |- *. exact I.
      + rewrite Eu. rewrite Eh in F. apply Forall_app in F. destruct F as [F1 F2]. inversion F2; subst. apply Forall_app; split; [exact F1|].
        constructor; [split; [exact Ho|exact Bt]|assumption].
    - assert (G : forall u, Permutation (bh_elems (firstn i h ++ (o, u) :: skipn (S i) h)) (b_elems u ++ bh_elems (firstn i h ++ skipn (S i) h))).
      { intros u. rewrite !elems_app. change (bh_elems ((o, u) :: skipn (S i) h)) with (b_elems u ++ bh_elems (skipn (S i) h)).
        rewrite !app_assoc. apply Permutation_app_tail, Permutation_app_comm. }
      split.
      + rewrite Eh at 1. rewrite G, P1. reflexivity.
      + rewrite Eu, G, P2. reflexivity.
  Qed.
  Lemma decrease_key_err h i path node nk : bh_ok h -> bh_node h i path = Some node -> b_key node <= nk -> bh_decrease_key h i path nk = Raise ValueError.
  Proof.
    intros H Hn Hle. unfold bh_node in Hn. destruct (nth_error h i) as [[o t]|] eqn:Hi; [|discriminate]. cbn [snd] in Hn.
    unfold bh_decrease_key. rewrite Hi, Hn.
    assert (exists r, b_decrease t path nk = Some r) as [[t' act] ->].
    { clear H Hle Hi. revert t node Hn. induction path as [|j p IH]; intros [k d ch] node Hn; cbn in *; [eauto|].
      destruct (nth_error ch j); [|discriminate]. destruct (IH _ _ Hn) as [[[ck cd cch] act] ->]. destruct (act && _); eauto. }
    destruct (Z.leb_spec (b_key node) nk); [reflexivity|lia].
  Qed.

  Lemma at_in path : forall t node, b_at t path = Some node -> In (@b_key D node, b_data node) (b_elems t).
  Proof.
    induction path as [|i p IH]; intros [k d ch] node H; cbn in *; [injection H as <-; left; reflexivity|].
    destruct (nth_error ch i) as [c|] eqn:Hc; [|discriminate]. right. apply in_flat_map. exists c. split; [eapply nth_error_In; eauto|].
    apply IH. exact H.
  Qed.
  Lemma node_in h i path node : bh_node h i path = Some node -> In (@b_key D node, b_data node) (bh_elems h).
  Proof.
    unfold bh_node. destruct (nth_error h i) as [t|] eqn:Hi; [|discriminate]. intros H. apply in_flat_map. exists t.
    split; [eapply nth_error_In; eauto|]. eapply at_in; eauto.
  Qed.

  Lemma least_perm_fst (x y : Z * D) l1 l2 : Permutation l1 l2 -> least x l1 -> In y l2 -> fst x <= fst y.
  Proof. intros P L H. apply L. eapply Permutation_in; [symmetry; exact P|exact H]. Qed.

  Lemma delete_ok h i path node : bh_ok h -> bh_node h i path = Some node ->
    exists h', bh_delete h i path = Ret h' /\ bh_ok h' /\ Permutation (bh_elems h) ((b_key node, b_data node) :: bh_elems h').
  Proof.
    intros H Hn. assert (Hne : h <> []) by (intros ->; destruct i; discriminate).
    pose proof (find_min_ok h H Hne) as W. apply wp_ex in W. destruct W as ([m mi] & Ef & _ & L).
    pose proof (node_in _ _ _ _ Hn) as Hin. pose proof (L _ Hin) as Hle. cbn [fst] in Hle.
    destruct (decrease_key_ok h i path node (b_key m - 1) H Hn ltac:(lia)) as (h1 & rest & Ed & H1 & P1 & P2).
    assert (Hne1 : h1 <> []) by (intros ->; symmetry in P2; apply Permutation_nil_cons in P2 || (apply Permutation_sym in P2; exact (Permutation_nil_cons P2)); contradiction).
    destruct (delete_min_ok h1 H1 Hne1) as (m2 & mi2 & h2 & Ef2 & Edm & H2 & P3 & L2).
    exists h2. unfold bh_delete. rewrite Ef. cbn [bind]. rewrite Ed. cbn [bind]. split; [exact Edm|]. split; [exact H2|].
    (* the minimum of h1 is the decreased element *)
    assert (Hm2 : In (b_key m2, b_data m2) ((b_key m - 1, b_data node) :: rest)).
    { eapply Permutation_in; [exact P2|]. eapply Permutation_in; [symmetry; exact P3|]. left. reflexivity. }
    destruct Hm2 as [Em | Hm2].
    - rewrite <- Em in P3. rewrite P1. apply perm_skip. rewrite P2 in P3. apply Permutation_cons_inv in P3. exact P3.
    - exfalso. assert (Hr : In (b_key m2, b_data m2) (bh_elems h)) by (eapply Permutation_in; [symmetry; exact P1|]; right; exact Hm2).
      specialize (L _ Hr). cbn [fst] in L.
      assert (K : In (b_key m - 1, b_data node) (bh_elems h1)) by (eapply Permutation_in; [symmetry; exact P2|]; left; reflexivity).
      specialize (L2 _ K). cbn [fst] in L2. lia.
  Qed.

  Lemma reachable_ok h : bh_reachable h -> bh_ok h.
  Proof.
    induction 1 as [|h k d h' _ IH E|h1 h2 h' _ IH1 _ IH2 E|h h' _ IH E|h i p k h' _ IH E|h i p h' _ IH E].
    - split; simpl; auto.
    - pose proof (insert_ok h k d IH) as W. rewrite E in W. apply W.
    - pose proof (merge_ok h1 h2 IH1 IH2) as W. rewrite E in W. apply W.
    - destruct h as [|t h]; [discriminate|]. destruct (delete_min_ok _ IH ltac:(discriminate)) as (m & mi & h2 & _ & E2 & O & _). congruence.
    - destruct (bh_node h i p) as [node|] eqn:Hn.
      + destruct (Z.lt_ge_cases k (b_key node)).
        * destruct (decrease_key_ok h i p node k IH Hn H) as (h2 & r & E2 & O & _). congruence.
        * rewrite (decrease_key_err h i p node k IH Hn) in E by lia. discriminate.
      + unfold bh_node in Hn. unfold bh_decrease_key in E. destruct (nth_error h i) as [[o t]|]; [|discriminate]. cbn in Hn. rewrite Hn in E. discriminate.
    - destruct (bh_node h i p) as [node|] eqn:Hn.
      + destruct (delete_ok h i p node IH Hn) as (h2 & E2 & O & _). congruence.
      + unfold bh_delete in E. destruct (bh_find_minimum h) as [[m mi]| |]; try discriminate. cbn in E.
        unfold bh_node in Hn. unfold bh_decrease_key in E. destruct (nth_error h i) as [[o t]|]; [|discriminate]. cbn in Hn. rewrite Hn in E. discriminate.
  Qed.

  (** ** sizes: order-n trees have 2^n elements, so there are at most log2(n)+1 trees *)
  Lemma bt_size t : forall n, bt n t -> len (b_elems t) = 2 ^ Z.of_nat n.
  Proof.
    induction t as [k d ch IH] using bnode_rect'. intros n B. apply bt_inv in B. destruct B as [-> B].
    assert (G : forall m, (m <= length ch)%nat -> 1 + len (flat_map b_elems (firstn m ch)) = 2 ^ Z.of_nat m).
    { induction m as [|m IHm]; intros Hm; [reflexivity|].
      destruct (nth_error ch m) as [c|] eqn:Hc; [|apply nth_error_None in Hc; lia].
      assert (Es : firstn (S m) ch = firstn m ch ++ [c]).
      { clear -Hc. revert m Hc. induction ch as [|a ch IH]; intros [|m] H; try discriminate; simpl in *; [congruence|]. f_equal. apply IH. exact H. }
      rewrite Es, flat_map_app. simpl. rewrite app_nil_r. unfold len in *. rewrite app_length, Nat2Z.inj_add.
      specialize (IHm ltac:(lia)). pose proof (IH c (nth_error_In _ _ Hc) m (proj1 (B m c Hc))) as Hs.
      rewrite Hs. rewrite Zpos_P_of_succ_nat, Z.pow_succ_r by lia. lia. }
    specialize (G (length ch) ltac:(lia)). rewrite firstn_all in G. unfold len in *. cbn [b_elems length]. rewrite Nat2Z.inj_succ. lia.
  Qed.
  Lemma heap_size_ge h : bh_ok h -> forall lo, 0 <= lo -> (forall t, In t h -> lo <= fst t) -> 2 ^ (lo + len h) - 2 ^ lo <= len (bh_elems h).
  Proof.
    induction h as [|t h IH]; intros H lo Hlo Hb.
    - unfold len. simpl. rewrite Z.add_0_r. lia.
    - apply ok_cons in H. destruct H as (Hh & [Ho Hbt] & Hlt). specialize (Hb t ltac:(left; reflexivity)).
      pose proof (bt_size _ _ Hbt) as Hs. rewrite Z2Nat.id in Hs by lia.
      specialize (IH Hh (lo + 1) ltac:(lia)). assert (forall u, In u h -> lo + 1 <= fst u) as Hx by (intros u Hu; specialize (Hlt u Hu); lia).
      specialize (IH Hx). change (bh_elems (t :: h)) with (b_elems (snd t) ++ bh_elems h).
      unfold len in *. rewrite app_length, Nat2Z.inj_add. cbn [length]. rewrite Nat2Z.inj_succ.
      replace (lo + Z.succ (Z.of_nat (length h))) with (lo + 1 + Z.of_nat (length h)) by lia.
      assert (2 ^ lo <= 2 ^ fst t) by (apply Z.pow_le_mono_r; lia). rewrite (Z.pow_add_r 2 lo 1) in IH by lia. lia.
  Qed.
End B.
