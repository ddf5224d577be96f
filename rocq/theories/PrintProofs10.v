(** The printed OneDimensionalSegmentTree: what each row lists. *)
From Coq Require Import Permutation Sorted.
From Verif Require Import Base ArraysProofs IntervalModel IntervalSpec FenwickProofs SegTreeProofs IntervalProofs PrintProofs9.

(** how often an insertion stops at a position *)
Fixpoint nstops (N : Z) (I : ikey) (t : lt) (p : nat) : nat :=
  if contains I (lkey t) then (if (pos N (lidx t) =? p)%nat then 1 else 0)
  else match t with LL _ _ => 0 | LN _ l r => (if intersect I (lkey l) then nstops N I l p else 0) + (if intersect I (lkey r) then nstops N I r p else 0) end.
Definition filled (n : inode) : Prop := n_data n <> Some [].

Lemma insert_stop_x k I N t tree rest : irep tree t -> len tree = N -> contains I (lkey t) = true ->
  exists tree', runs (ins_body k I) 1 (lidx t :: rest, tree) (rest, tree') /\ map skel tree' = map skel tree /\ (Forall filled tree -> Forall filled tree') /\
    forall p, dat tree' p = dat tree p ++ repeat k (if (pos N (lidx t) =? p)%nat then 1 else 0).
Proof.
  intros R HN Ec. destruct (irep_here _ _ R) as [d Hg]. destruct (lget_pos _ _ _ Hg) as [Hn Hl]. rewrite HN in *. eexists. split; [|split; [|split]].
  - apply runs_one. cbn [ins_body]. rewrite Hg. cbn [bind n_key]. rewrite Ec. rewrite (lget_aset _ _ _ _ Hg). reflexivity.
  - rewrite HN. apply (skel_upd _ _ _ _ Hn). reflexivity.
  - intros F. apply Forall_forall. intros n Hin. apply In_nth_error in Hin. destruct Hin as [q Hq]. rewrite nth_error_upd in Hq. match type of Hq with (if ?c then _ else _) = _ => destruct c end.
    + injection Hq as <-. unfold filled. cbn [n_data]. intros E. injection E as E. destruct (match d with Some l => l | None => [] end); discriminate.
    + rewrite Forall_forall in F. apply F. apply (nth_error_In _ _ Hq).
  - intros p. rewrite HN, dat_upd by exact Hl. cbn [n_data]. destruct (Nat.eqb_spec (pos N (lidx t)) p) as [<-|Hp].
    + unfold dat. rewrite Hn. cbn [n_data]. destruct d; reflexivity.
    + symmetry. apply app_nil_r.
Qed.
Lemma insert_rec_x k I N t : forall tree rest, irep tree t -> len tree = N ->
  exists s tree', runs (ins_body k I) s (lidx t :: rest, tree) (rest, tree') /\ (s <= lsize t)%nat /\ map skel tree' = map skel tree /\ (Forall filled tree -> Forall filled tree') /\
    forall p, dat tree' p = dat tree p ++ repeat k (nstops N I t p).
Proof.
  induction t as [i kk|i l IHl r IHr]; intros tree rest R HN.
  - destruct (contains I (lkey (LL i kk))) eqn:Ec.
    + destruct (insert_stop_x k I N _ tree rest R HN Ec) as (tree' & A & B & C & D). exists 1%nat, tree'. cbn [nstops lsize]. rewrite Ec. auto.
    + exists 1%nat, tree. split; [|split; [simpl; lia|split; [reflexivity|split; [auto|]]]].
      * apply runs_one. cbn [ins_body]. destruct (irep_here _ _ R) as [d Hg]. rewrite Hg. cbn [bind n_key]. rewrite Ec, (iterate_ok _ _ _ _ R). reflexivity.
      * intros p. cbn [nstops]. rewrite Ec. symmetry. apply app_nil_r.
  - destruct (contains I (lkey (LN i l r))) eqn:Ec.
    + destruct (insert_stop_x k I N _ tree rest R HN Ec) as (tree' & A & B & C & D). exists 1%nat, tree'. cbn [nstops lsize]. rewrite Ec. repeat (split; [assumption || lia|]). exact D.
    + assert (R1 : runs (ins_body k I) 1 (lidx (LN i l r) :: rest, tree) ((if intersect I (lkey l) then [lidx l] else []) ++ (if intersect I (lkey r) then [lidx r] else []) ++ rest, tree)).
      { apply runs_one. cbn [ins_body]. destruct (irep_here _ _ R) as [d Hg]. rewrite Hg. cbn [bind n_key]. rewrite Ec, (iterate_ok _ _ _ _ R). reflexivity. }
      cbn [irep] in R. destruct R as (_ & Rl & Rr). cbn [nstops lsize]. rewrite Ec.
      assert (HL : exists s tree', runs (ins_body k I) s ((if intersect I (lkey l) then [lidx l] else []) ++ (if intersect I (lkey r) then [lidx r] else []) ++ rest, tree)
           ((if intersect I (lkey r) then [lidx r] else []) ++ rest, tree') /\ (s <= lsize l)%nat /\ map skel tree' = map skel tree /\ (Forall filled tree -> Forall filled tree') /\
         forall p, dat tree' p = dat tree p ++ repeat k (if intersect I (lkey l) then nstops N I l p else 0)).
      { destruct (intersect I (lkey l)).
        - destruct (IHl tree ((if intersect I (lkey r) then [lidx r] else []) ++ rest) Rl HN) as (s & tree' & A & B & C & D). exists s, tree'. repeat (split; [assumption|]). exact D.
        - exists 0%nat, tree. split; [intros f; reflexivity|]. split; [lia|]. split; [reflexivity|]. split; [auto|]. intros p. symmetry. apply app_nil_r. }
      destruct HL as (s1 & t1 & A1 & B1 & C1 & F1 & D1).
      assert (L1 : len t1 = N) by (apply (f_equal (@length _)) in C1; rewrite !map_length in C1; unfold len in *; lia).
      assert (HR : exists s tree', runs (ins_body k I) s ((if intersect I (lkey r) then [lidx r] else []) ++ rest, t1)
           (rest, tree') /\ (s <= lsize r)%nat /\ map skel tree' = map skel t1 /\ (Forall filled t1 -> Forall filled tree') /\
         forall p, dat tree' p = dat t1 p ++ repeat k (if intersect I (lkey r) then nstops N I r p else 0)).
      { destruct (intersect I (lkey r)).
        - destruct (IHr t1 rest (irep_skel _ _ _ C1 Rr) L1) as (s & tree' & A & B & C & D). exists s, tree'. repeat (split; [assumption|]). exact D.
        - exists 0%nat, t1. split; [intros f; reflexivity|]. split; [lia|]. split; [reflexivity|]. split; [auto|]. intros p. symmetry. apply app_nil_r. }
      destruct HR as (s2 & t2 & A2 & B2 & C2 & F2 & D2).
      exists (1 + (s1 + s2))%nat, t2. split; [eapply runs_trans; [exact R1|]; eapply runs_trans; [exact A1|exact A2]|]. split; [lia|]. split; [congruence|]. split; [auto|].
      intros p. rewrite D2, D1, <- app_assoc, <- repeat_app. reflexivity.
Qed.
Lemma nstops_zero N I t p : ~ In p (lpos N t) -> nstops N I t p = 0%nat.
Proof.
  induction t as [i k|i l IHl r IHr]; cbn [lpos nstops lidx]; intros H.
  - destruct (contains _ _); [|reflexivity]. destruct (Nat.eqb_spec (pos N i) p) as [E|]; [exfalso; apply H; left; exact E|reflexivity].
  - destruct (contains _ _).
    + destruct (Nat.eqb_spec (pos N i) p) as [E|]; [exfalso; apply H; left; exact E|reflexivity].
    + rewrite IHl, IHr by (intros Q; apply H; right; apply in_or_app; auto). destruct (intersect I (lkey l)), (intersect I (lkey r)); reflexivity.
Qed.
Lemma nstops_one N I t p : NoDup (lpos N t) -> (nstops N I t p <= 1)%nat.
Proof.
  induction t as [i k|i l IHl r IHr]; cbn [lpos nstops lidx]; intros H.
  - destruct (contains _ _); [destruct (_ =? _)%nat|]; lia.
  - destruct (contains _ _); [destruct (_ =? _)%nat; lia|]. inversion H as [|? ? _ H']; subst.
    assert (Hl : NoDup (lpos N l)) by (revert H'; generalize (lpos N r); clear; induction (lpos N l) as [|b g IHg]; intros t H; [constructor|]; cbn in H; inversion H; subst; constructor; [rewrite in_app_iff in *; tauto|apply (IHg t); assumption]).
    assert (Hr : NoDup (lpos N r)) by (revert H'; clear; induction (lpos N l) as [|b g IHg]; intros H; [exact H|]; inversion H; subst; apply IHg; assumption).
    assert (D : In p (lpos N l) -> In p (lpos N r) -> False).
    { revert H'. clear. induction (lpos N l) as [|b g IHg]; intros H Hc Hd; [destruct Hc|]. cbn in H. inversion H; subst. destruct Hc as [<-|Hc]; [apply H2; apply in_or_app; right; exact Hd|apply (IHg H3 Hc Hd)]. }
    specialize (IHl Hl). specialize (IHr Hr). destruct (in_dec Nat.eq_dec p (lpos N l)) as [Hi|Hi].
    + rewrite (nstops_zero N I r p) by (intros Q; apply (D Hi Q)). destruct (intersect I (lkey l)), (intersect I (lkey r)); lia.
    + rewrite (nstops_zero N I l p) by exact Hi. destruct (intersect I (lkey l)), (intersect I (lkey r)); lia.
Qed.
Lemma nstops_stops N I t p : (0 < nstops N I t p)%nat <-> stops N I t p.
Proof.
  induction t as [i k|i l IHl r IHr]; cbn [nstops stops].
  - destruct (contains _ _); [|split; [lia|tauto]]. destruct (Nat.eqb_spec (pos N (lidx (LL i k))) p); split; intros; try lia; congruence.
  - destruct (contains _ _).
    + destruct (Nat.eqb_spec (pos N (lidx (LN i l r))) p); split; intros; try lia; congruence.
    + rewrite <- IHl, <- IHr. destruct (intersect I (lkey l)), (intersect I (lkey r)); split; intros H; try lia; try (destruct H as [[H1 H2]|[H1 H2]]; try discriminate; lia).
Qed.

Lemma insert_all_x segs t : forall k0 tree, irep tree t -> lidx t = -1 -> (lsize t <= length tree)%nat -> NoDup (lpos (len tree) t) -> Forall filled tree ->
  exists tree', forM segs (fun seg '(k, tree) => tree <- insert_seg k seg tree ;; Ret (S k, tree)) (k0, tree) = Ret ((k0 + length segs)%nat, tree') /\ map skel tree' = map skel tree /\
    Forall filled tree' /\
    forall p, exists ks, dat tree' p = dat tree p ++ ks /\ Sorted Peano.lt ks /\ forall x, In x ks <-> exists i seg, nth_error segs i = Some seg /\ x = (k0 + i)%nat /\ stops (len tree) (IK true (fst seg) (snd seg) true) t p.
Proof.
  induction segs as [|seg segs IH]; intros k0 tree R E L ND F.
  - exists tree. split; [cbn; rewrite Nat.add_0_r; reflexivity|]. split; [reflexivity|]. split; [exact F|]. intros p. exists []. rewrite app_nil_r. split; [reflexivity|]. split; [constructor|]. intros x. split; [intros []|].
    intros ([|i] & sg & Hn & _); discriminate.
  - set (I := IK true (fst seg) (snd seg) true). destruct (insert_rec_x k0 I (len tree) t tree [] R eq_refl) as (s & t1 & A & B & C & F1 & D). specialize (F1 F).
    assert (A' : insert_seg k0 seg tree = Ret t1).
    { unfold insert_seg. fold (ins_body k0 I). rewrite E in A. replace (S (length tree)) with (s + S (length tree - s))%nat by lia. fold I. rewrite A. apply while_break. reflexivity. }
    cbn [forM]. rewrite A'. cbn [bind].
    assert (L1 : length t1 = length tree) by (apply (f_equal (@length _)) in C; rewrite !map_length in C; exact C). assert (L2 : len t1 = len tree) by (unfold len; lia).
    destruct (IH (S k0) t1 (irep_skel _ _ _ C R) E ltac:(lia) ltac:(rewrite L2; exact ND) F1) as (t2 & A2 & C2 & F2 & D2). exists t2. split; [rewrite A2; do 2 f_equal; cbn [length]; lia|]. split; [congruence|].
    split; [exact F2|]. intros p. destruct (D2 p) as (ks & D3 & Sk & Hk). rewrite L2 in Hk. rewrite D3, D. pose proof (nstops_one (len tree) I t p ND) as H1. pose proof (nstops_stops (len tree) I t p) as H2.
    exists (repeat k0 (nstops (len tree) I t p) ++ ks). split; [rewrite app_assoc; reflexivity|]. split.
    + destruct (nstops (len tree) I t p) as [|[|m]]; [exact Sk| |lia]. cbn [repeat app]. constructor; [exact Sk|]. destruct ks as [|x ks']; [constructor|]. constructor.
      destruct (proj1 (Hk x) (or_introl eq_refl)) as (i & sg & _ & -> & _). lia.
    + intros x. rewrite in_app_iff, Hk. split.
      * intros [H|(i & sg & Hn & -> & H)].
        -- apply repeat_spec in H as Hx. subst x. exists 0%nat, seg. split; [reflexivity|]. split; [lia|]. apply H2. destruct (nstops (len tree) I t p); [destruct H|lia].
        -- exists (S i), sg. split; [exact Hn|]. split; [lia|exact H].
      * intros ([|i] & sg & Hn & -> & H).
        -- left. cbn in Hn. injection Hn as <-. apply H2 in H. destruct (nstops (len tree) I t p) as [|m]; [lia|]. left. lia.
        -- right. exists i, sg. split; [exact Hn|]. split; [lia|exact H].
Qed.

(** ** the intervals are nested *)
Definition kle (k k' : ikey) : Prop := k_lo k <= k_lo k' /\ k_hi k <= k_hi k'.
Definition mono (ls : list ikey) : Prop := StronglySorted kle ls /\ Forall (fun k => k_lo k <= k_hi k) ls.
Lemma mono_app_l a b : mono (a ++ b) -> mono a.
Proof.
  intros [S F]. apply Forall_app in F. split; [|apply F]. destruct F as [F _]. induction a as [|x a IH]; [constructor|]. cbn in S. inversion S; subst. inversion F; subst. constructor; [auto|].
  apply Forall_forall. rewrite Forall_forall in H2. intros y Hy. apply H2, in_or_app. left. exact Hy.
Qed.
Lemma mono_app_r a b : mono (a ++ b) -> mono b.
Proof. intros [S F]. apply Forall_app in F. split; [|apply F]. clear F. induction a as [|x a IH]; [exact S|]. cbn in S. inversion S; subst. auto. Qed.
Lemma mono_ends x xs ys y : mono (x :: xs) -> x :: xs = ys ++ [y] -> forall k, In k (x :: xs) -> kle x k /\ kle k y.
Proof.
  intros [S F] E k Hk. split.
  - destruct Hk as [<-|Hk]; [unfold kle; lia|]. inversion S; subst. rewrite Forall_forall in H2. apply H2, Hk.
  - rewrite E in Hk, S. apply in_app_iff in Hk. destruct Hk as [Hk|[<-|[]]]; [|unfold kle; lia]. clear E. induction ys as [|z ys IH]; [destruct Hk|]. cbn in S. inversion S; subst. destruct Hk as [<-|Hk]; [|apply IH; assumption].
    rewrite Forall_forall in H2. apply H2, in_or_app. right. left. reflexivity.
Qed.
(** [k] lies within [K] *)
Definition within (k K : ikey) : Prop := k_lo K <= k_lo k /\ k_hi k <= k_hi K.
Lemma lkey_within t k : mono (lleaves t) -> In k (lleaves t) -> within k (lkey t).
Proof.
  intros M Hk. destruct (lkey_ends t) as (x & y & xs & ys & A & B & C & D & E & F). rewrite A in M, Hk. destruct (mono_ends x xs ys y M ltac:(congruence) k Hk) as [[H1 _] [_ H2]]. unfold within. lia.
Qed.
Lemma lkey_sub t u : mono (lleaves t) -> (exists a b, lleaves t = a ++ lleaves u ++ b) -> within (lkey u) (lkey t).
Proof.
  intros M (a & b & E). destruct (lkey_ends u) as (x & y & xs & ys & A & B & C & D & E1 & F).
  assert (Hx : In x (lleaves t)) by (rewrite E, A; apply in_or_app; right; apply in_or_app; left; left; reflexivity).
  assert (Hy : In y (lleaves t)) by (rewrite E, B; apply in_or_app; right; apply in_or_app; left; apply in_or_app; right; left; reflexivity).
  apply (lkey_within t _ M) in Hx. apply (lkey_within t _ M) in Hy. unfold within in *. lia.
Qed.
Lemma lkey_proper t : mono (lleaves t) -> k_lo (lkey t) <= k_hi (lkey t).
Proof.
  intros M. destruct (lkey_ends t) as (x & y & xs & ys & A & B & C & D & E & F). rewrite D, E. rewrite A in M. assert (Hx : In x (x :: xs)) by (left; reflexivity).
  destruct (mono_ends x xs ys y M ltac:(congruence) x Hx) as [_ [_ H]]. destruct M as [_ M]. inversion M; subst. lia.
Qed.
Lemma within_trans a b c : within a b -> within b c -> within a c. Proof. unfold within. lia. Qed.
Lemma contains_within a b k K : within k K -> contains (IK true a b true) K = true -> contains (IK true a b true) k = true.
Proof. rewrite !contains_closed. unfold within. lia. Qed.
Lemma intersect_within a b k K : a <= b -> k_lo k <= k_hi k -> within k K -> contains (IK true a b true) k = true -> contains (IK true a b true) K = false -> intersect (IK true a b true) K = true.
Proof.
  intros Hab Hk Hw Hc Hn. apply contains_closed in Hc. assert (Hn' : ~ (a <= k_lo K /\ k_hi K <= b)) by (intros Q; apply contains_closed in Q; congruence). unfold within in Hw.
  unfold intersect. cbn [k_hi k_lo k_cr k_cl]. destruct (Z.ltb_spec b (k_lo K)); [lia|]. destruct (Z.ltb_spec (k_hi K) a); [lia|]. cbn [orb].
  destruct (Z.eqb_spec b (k_lo K)), (Z.eqb_spec (k_hi K) a); try reflexivity; [lia|]. destruct (true && k_cl K); reflexivity.
Qed.
(** a covered interval is missed only if it is empty and the segment is a point *)
Lemma intersect_covered a b K : a <= b -> k_lo K <= k_hi K -> contains (IK true a b true) K = true ->
  (intersect (IK true a b true) K = true <-> ~ (a = b /\ K = IK false a a false)).
Proof.
  intros Hab Hk Hc. apply contains_closed in Hc. unfold intersect. cbn [k_hi k_lo k_cr k_cl]. destruct K as [cl lo hi cr]. cbn [k_hi k_lo k_cr k_cl] in *.
  destruct (Z.ltb_spec b lo); [lia|]. destruct (Z.ltb_spec hi a); [lia|]. cbn [orb andb]. rewrite andb_true_r.
  destruct (Z.eqb_spec b lo), (Z.eqb_spec hi a).
  - assert (a = lo) by lia. assert (hi = lo) by lia. destruct cl, cr; split; intros Q; try reflexivity; try (intros [_ Q']; congruence); try discriminate. exfalso. apply Q. split; [lia|]. f_equal; lia.
  - destruct cl; split; intros; try reflexivity; intros [? [=]]; lia.
  - destruct cr; split; intros; try reflexivity; intros [? [=]]; lia.
  - split; intros; try reflexivity; intros [? [=]]; lia.
Qed.

Section W.
  Context (tree : list inode) (W : wired tree).
  Notation N := (len tree).
  Definition keyat (p : nat) (k : ikey) : Prop := exists n, nth_error tree p = Some n /\ n_key n = k.
  Definition no_parent (I : ikey) (p : nat) : Prop := forall q n, nth_error tree q = Some n -> In p (kidp N n) -> contains I (n_key n) = false.
  Lemma key_of_pos t : irep tree t -> mono (lleaves t) -> forall p k, In p (lpos N t) -> keyat p k -> within k (lkey t) /\ k_lo k <= k_hi k.
  Proof.
    induction t as [i kk|i l IHl r IHr]; intros R M p k; cbn [lpos]; intros [Hp|Hp] (n & Hn & Hk).
    - destruct (root_node tree _ R) as (m & Hm & Hkm & _). rewrite Hp, Hn in Hm. injection Hm as <-. split; [unfold within; rewrite <- Hk, Hkm; lia|]. rewrite <- Hk, Hkm. apply lkey_proper. exact M.
    - destruct Hp.
    - destruct (root_node tree _ R) as (m & Hm & Hkm & _). rewrite Hp, Hn in Hm. injection Hm as <-. split; [unfold within; rewrite <- Hk, Hkm; lia|]. rewrite <- Hk, Hkm. apply lkey_proper. exact M.
    - assert (R0 := R). cbn [irep] in R. destruct R as (_ & Rl & Rr). assert (Ml : mono (lleaves l)) by (apply (mono_app_l _ _ M)). assert (Mr : mono (lleaves r)) by (apply (mono_app_r _ _ M)).
      apply in_app_iff in Hp. destruct Hp as [Hp|Hp].
      + destruct (IHl Rl Ml p k Hp ltac:(exists n; auto)) as [H1 H2]. split; [|exact H2]. apply (within_trans _ _ _ H1). apply lkey_sub; [exact M|]. exists [], (lleaves r). reflexivity.
      + destruct (IHr Rr Mr p k Hp ltac:(exists n; auto)) as [H1 H2]. split; [|exact H2]. apply (within_trans _ _ _ H1). apply lkey_sub; [exact M|]. exists (lleaves l), []. rewrite app_nil_r. reflexivity.
  Qed.
  Lemma stops_fwd I t : irep tree t -> forall p, stops N I t p -> In p (lpos N t) /\ (exists k, keyat p k /\ contains I k = true /\ (p = pos N (lidx t) \/ intersect I k = true)) /\ (p = pos N (lidx t) \/ no_parent I p).
  Proof.
    induction t as [i kk|i l IHl r IHr]; intros R p; cbn [stops].
    - destruct (contains I (lkey (LL i kk))) eqn:E; [|intros []]. intros ->. split; [apply lpos_root|]. split; [|left; reflexivity]. destruct (root_node tree _ R) as (n & Hn & Hk & _). exists (n_key n). split; [exists n; auto|]. rewrite Hk. auto.
    - destruct (contains I (lkey (LN i l r))) eqn:E.
      + intros ->. split; [apply lpos_root|]. split; [|left; reflexivity]. destruct (root_node tree _ R) as (n & Hn & Hk & _). exists (n_key n). split; [exists n; auto|]. rewrite Hk. auto.
      + destruct (root_node tree _ R) as (n & Hn & Hk & Hkid). cbn [irep] in R. destruct R as (_ & Rl & Rr). intros [[Hi H]|[Hi H]].
        * destruct (IHl Rl p H) as (A & (k & B & C & D) & F). split; [right; apply in_or_app; left; exact A|]. split.
          -- exists k. split; [exact B|]. split; [exact C|]. right. destruct D as [->|D]; [|exact D]. destruct (root_node tree _ Rl) as (m & Hm & Hkm & _). destruct B as (m' & Hm' & <-). rewrite Hm in Hm'. injection Hm' as <-. rewrite Hkm. exact Hi.
          -- right. destruct F as [->|F]; [|exact F]. intros q m Hm Hc. assert (Eq : q = pos N (lidx (LN i l r))) by (apply (one_parent tree W _ _ _ _ _ Hm Hn Hc); rewrite Hkid; left; reflexivity). rewrite Eq, Hn in Hm. injection Hm as <-. rewrite Hk. exact E.
        * destruct (IHr Rr p H) as (A & (k & B & C & D) & F). split; [right; apply in_or_app; right; exact A|]. split.
          -- exists k. split; [exact B|]. split; [exact C|]. right. destruct D as [->|D]; [|exact D]. destruct (root_node tree _ Rr) as (m & Hm & Hkm & _). destruct B as (m' & Hm' & <-). rewrite Hm in Hm'. injection Hm' as <-. rewrite Hkm. exact Hi.
          -- right. destruct F as [->|F]; [|exact F]. intros q m Hm Hc. assert (Eq : q = pos N (lidx (LN i l r))) by (apply (one_parent tree W _ _ _ _ _ Hm Hn Hc); rewrite Hkid; right; left; reflexivity). rewrite Eq, Hn in Hm. injection Hm as <-. rewrite Hk. exact E.
  Qed.
  Lemma stops_back a b t : a <= b -> irep tree t -> mono (lleaves t) -> forall p k, In p (lpos N t) -> keyat p k -> contains (IK true a b true) k = true ->
    (p = pos N (lidx t) \/ (no_parent (IK true a b true) p /\ intersect (IK true a b true) k = true)) -> stops N (IK true a b true) t p.
  Proof.
    intros Hab. set (I := IK true a b true). induction t as [i kk|i l IHl r IHr]; intros R M p k Hin Hkey Hc Hp.
    - destruct Hin as [<-|[]]. destruct (root_node tree _ R) as (n & Hn & Hk & _). destruct Hkey as (n' & Hn' & <-). rewrite Hn in Hn'. injection Hn' as <-. cbn [stops]. rewrite <- Hk, Hc. reflexivity.
    - destruct (root_node tree _ R) as (n & Hn & Hk & Hkid). assert (R0 := R). cbn [irep] in R. destruct R as (_ & Rl & Rr). assert (Ml : mono (lleaves l)) by (apply (mono_app_l _ _ M)). assert (Mr : mono (lleaves r)) by (apply (mono_app_r _ _ M)).
      cbn [lpos] in Hin. destruct Hin as [<-|Hin].
      + destruct Hkey as (n' & Hn' & <-). rewrite Hn in Hn'. injection Hn' as <-. cbn [stops]. rewrite <- Hk, Hc. reflexivity.
      + assert (Side : forall u, irep tree u -> mono (lleaves u) -> In (pos N (lidx u)) (kidp N n) -> within (lkey u) (lkey (LN i l r)) -> In p (lpos N u) ->
          (p = pos N (lidx (LN i l r)) \/ (no_parent I p /\ intersect I k = true)) ->
          contains I (lkey (LN i l r)) = false /\ intersect I (lkey u) = true /\ (p = pos N (lidx u) \/ (no_parent I p /\ intersect I k = true))).
        { intros u Ru Mu Hku Hwu Hpu Hp'. destruct Hp' as [->|[Hnp Hi]].
          { exfalso. pose proof (lpos_le tree W u Ru _ Hpu) as Q1. pose proof (w_below _ W _ _ _ Hn Hku). lia. }
          assert (Hpar : p = pos N (lidx u) \/ contains I (lkey u) = false).
          { destruct (lpos_parent tree u Ru p Hpu) as [|(q & m & Hq & Hm & Hcm)]; [left; assumption|right]. specialize (Hnp q m Hm Hcm).
            destruct (key_of_pos u Ru Mu q (n_key m) Hq ltac:(exists m; auto)) as [Hw _]. destruct (contains I (lkey u)) eqn:E; [|reflexivity]. pose proof (contains_within a b _ _ Hw E) as Q. fold I in Q. congruence. }
          destruct (key_of_pos u Ru Mu p k Hpu Hkey) as [Hw Hpr].
          destruct Hpar as [->|Hpar].
          - split; [|split; [|right; auto]].
            + rewrite <- Hk. apply (Hnp _ n Hn Hku).
            + destruct (root_node tree _ Ru) as (m & Hm & Hkm & _). destruct Hkey as (m' & Hm' & <-). rewrite Hm in Hm'. injection Hm' as <-. rewrite <- Hkm. exact Hi.
          - split; [|split; [|right; auto]].
            + destruct (contains I (lkey (LN i l r))) eqn:E; [|reflexivity]. pose proof (contains_within a b _ _ Hwu E) as Q. fold I in Q. congruence.
            + apply (intersect_within a b k); assumption. }
        apply in_app_iff in Hin. destruct Hin as [Hin|Hin].
        * destruct (Side l Rl Ml) as (E1 & E2 & E3); [rewrite Hkid; left; reflexivity|apply lkey_sub; [exact M|exists [], (lleaves r); reflexivity]|exact Hin|exact Hp|].
          cbn [stops]. rewrite E1. left. split; [exact E2|]. apply (IHl Rl Ml p k Hin Hkey Hc E3).
        * destruct (Side r Rr Mr) as (E1 & E2 & E3); [rewrite Hkid; right; left; reflexivity|apply lkey_sub; [exact M|exists (lleaves l), []; rewrite app_nil_r; reflexivity]|exact Hin|exact Hp|].
          cbn [stops]. rewrite E1. right. split; [exact E2|]. apply (IHr Rr Mr p k Hin Hkey Hc E3).
  Qed.
End W.

(** ** the elementary intervals are in order *)
Lemma elems_mono es : forall prev, zsorted es -> (forall e, In e es -> prev <= e) -> mono (elems prev es) /\ (forall k, In k (elems prev es) -> prev <= k_lo k).
Proof.
  induction es as [|e es IH]; intros prev S H; cbn [elems]; [split; [split; constructor|intros k []]|]. destruct S as [S1 S2]. pose proof (H e (or_introl eq_refl)) as H0.
  destruct (IH e S2 S1) as [[M1 M2] L]. pose proof (elems_hi es e e S2 S1) as Hh. split.
  - split.
    + constructor; [constructor; [exact M1|]|].
      * apply Forall_forall. intros k Hk. specialize (L k Hk). specialize (Hh k Hk). unfold kle. cbn. lia.
      * constructor; [unfold kle; cbn; lia|]. apply Forall_forall. intros k Hk. specialize (L k Hk). specialize (Hh k Hk). unfold kle. cbn. lia.
    + constructor; [cbn; lia|]. constructor; [cbn; lia|exact M2].
  - intros k [<-|[<-|Hk]]; [cbn; lia|cbn; lia|]. specialize (L k Hk). lia.
Qed.
Lemma elems_last es : forall prev, zsorted es -> (forall e, In e es -> prev <= e) -> forall k, In k (elems prev es) -> k_lo k <= last es prev /\ k_hi k <= last es prev.
Proof.
  induction es as [|e es IH]; intros prev S H k; [intros []|]. destruct S as [S1 S2]. pose proof (H e (or_introl eq_refl)) as H0.
  assert (Hl : e <= last (e :: es) prev /\ last (e :: es) prev = last es e).
  { destruct es as [|e' es']; [cbn; lia|]. change (last (e :: e' :: es') prev) with (last (e' :: es') prev). rewrite (last_default (e' :: es') prev e) by discriminate. split; [|reflexivity].
    pose proof (last_in (e' :: es') e ltac:(discriminate)) as Q. specialize (S1 _ Q). exact S1. }
  destruct Hl as [Hl1 Hl2]. cbn [elems]. intros [<-|[<-|Hk]]; [unfold opn; cbn [k_lo k_hi]; lia|unfold cls; cbn [k_lo k_hi]; lia|]. rewrite Hl2 in *. apply (IH e S2 S1 k Hk).
Qed.
Lemma mono_snoc ls k : mono ls -> k_lo k <= k_hi k -> (forall j, In j ls -> kle j k) -> mono (ls ++ [k]).
Proof.
  intros [S F] Hk H. split; [|apply Forall_app; split; [exact F|repeat constructor; exact Hk]]. clear F. induction S as [|x l S IH Hx]; [repeat constructor|]. cbn [app]. constructor.
  - apply IH. intros j Hj. apply H. right. exact Hj.
  - apply Forall_app. split; [exact Hx|]. repeat constructor; apply (H x (or_introl eq_refl)).
Qed.
Lemma elem_all_mono one es : 0 < one -> zsorted es -> mono (elem_all one es).
Proof.
  intros Ho S. unfold elem_all. destruct es as [|e es]; [split; constructor|]. assert (Hp : forall y, In y (e :: es) -> e - one <= y) by (intros y [<-|Hy]; [lia|]; destruct S as [S _]; specialize (S y Hy); lia).
  apply mono_snoc; [apply (elems_mono (e :: es) (e - one) S Hp)|cbn; lia|]. intros j Hj. destruct (elems_last (e :: es) (e - one) S Hp j Hj) as [H1 H2]. rewrite (last_default (e :: es) (e - one) e) in H1, H2 by discriminate.
  unfold kle, opn. cbn [k_lo k_hi]. lia.
Qed.
