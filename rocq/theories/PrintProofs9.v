(** The printed OneDimensionalSegmentTree: where the segments are put. *)
From Coq Require Import Permutation Sorted.
From Verif Require Import Base ArraysProofs IntervalModel IntervalSpec FenwickProofs SegTreeProofs IntervalProofs.

(** ** partial correctness of loops *)
Lemma while_inv {S R} (I : S -> Prop) (Q : R -> Prop) (body : S -> res (ctl S R)) :
  (forall s, I s -> match body s with Ret (Next s') => I s' | Ret (Break r) => Q r | _ => True end) ->
  forall f s r, I s -> while_loop f body s = Ret r -> Q r.
Proof.
  intros H. induction f as [|f IH]; intros s r Hs E; cbn [while_loop] in E; [discriminate|]. specialize (H s Hs). destruct (body s) as [[s'|r']|e|]; cbn [bind] in E; try discriminate.
  - apply (IH s' r H E).
  - injection E as <-. exact H.
Qed.

(** ** the numbers of the children *)
Definition zkids (n : inode) : list Z := match n_left n, n_right n with Some l, Some r => [l; r] | _, _ => [] end.
Definition zrefs (l : list inode) : list Z := flat_map zkids l.
Definition nseq (n : nat) : list Z := map Z.of_nat (seq 0 n).
Definition pinv (q tree : list inode) : Prop :=
  Permutation (zrefs (q ++ tree)) (nseq (length tree)) /\
  (forall n c, In n q -> In c (zkids n) -> c < len tree) /\
  (forall i n c, nth_error tree i = Some n -> In c (zkids n) -> c < Z.of_nat i).
Lemma zrefs_app a b : zrefs (a ++ b) = zrefs a ++ zrefs b.
Proof. apply flat_map_app. Qed.
Lemma pinv_step I1 I2 q tree k : pinv (I1 :: I2 :: q) tree ->
  pinv (q ++ [{| n_key := k; n_left := Some (len tree); n_right := Some (len tree + 1); n_data := None |}]) (tree ++ [I1; I2]).
Proof.
  intros (P & B1 & B2). split; [|split].
  - pose proof (proj1 (Permutation_count_occ Z.eq_dec _ _) P) as Q. apply (Permutation_count_occ Z.eq_dec). intros z. specialize (Q z).
    assert (En : nseq (length (tree ++ [I1; I2])) = nseq (length tree) ++ [len tree; len tree + 1]).
    { unfold nseq. rewrite app_length. cbn [length]. rewrite seq_app, map_app. cbn [map seq Nat.add]. f_equal. unfold len. f_equal. f_equal. lia. }
    rewrite En. rewrite !zrefs_app in *. unfold zrefs in *. cbn [flat_map] in *. rewrite !count_occ_app in *. rewrite <- Q.
    change (zkids {| n_key := k; n_left := Some (len tree); n_right := Some (len tree + 1); n_data := None |}) with [len tree; len tree + 1].
    change (count_occ Z.eq_dec [] z) with 0%nat. lia.
  - intros n c Hn Hc. unfold len. rewrite app_length. cbn [length]. apply in_app_iff in Hn. destruct Hn as [Hn|[<-|[]]].
    + specialize (B1 n c (or_intror (or_intror Hn)) Hc). unfold len in B1. lia.
    + cbn [zkids n_left n_right] in Hc. unfold len in Hc. destruct Hc as [<-|[<-|[]]]; lia.
  - intros i n c Hn Hc. destruct (Nat.lt_ge_cases i (length tree)).
    + rewrite nth_error_app1 in Hn by assumption. apply (B2 i n c Hn Hc).
    + rewrite nth_error_app2 in Hn by assumption. destruct (i - length tree)%nat as [|[|j]] eqn:Ej; cbn in Hn; [injection Hn as <-|injection Hn as <-|destruct j; discriminate].
      * specialize (B1 I1 c (or_introl eq_refl) Hc). unfold len in B1. lia.
      * specialize (B1 I2 c (or_intror (or_introl eq_refl)) Hc). unfold len in B1. lia.
Qed.

Lemma pinv_rot I q tree : pinv (I :: q) tree -> pinv (q ++ [I]) tree.
Proof.
  intros (P & B1 & B2). split; [|split; [|exact B2]].
  - transitivity (zrefs ((I :: q) ++ tree)); [|exact P]. unfold zrefs. apply Permutation_flat_map. apply Permutation_app_tail. symmetry. apply Permutation_cons_append.
  - intros n c Hn. apply in_app_iff in Hn. apply B1. destruct Hn as [Hn|[<-|[]]]; [right; exact Hn|left; reflexivity].
Qed.
Lemma pair_inner_inv m queue tree m' q' t' : pinv queue tree -> pair_inner m queue tree = Ret (m', q', t') -> pinv q' t'.
Proof.
  intros H E. unfold pair_inner in E.
  apply (while_inv (fun '(_, q, t) => pinv q t) (fun '(_, q, t) => pinv q t)) in E; [exact E| |exact H].
  clear. intros [[m q] t] H. destruct (2 <=? m); [|exact H]. destruct q as [|I1 [|I2 q]]; try exact I. apply pinv_step. exact H.
Qed.
Lemma pair_up_inv queue q' t' : pinv queue [] -> pair_up queue = Ret (q', t') -> pinv q' t'.
Proof.
  intros H E. unfold pair_up in E.
  apply (while_inv (fun '(q, t) => pinv q t) (fun '(q, t) => pinv q t)) in E; [exact E| |exact H].
  clear. intros [q t] H. destruct (1 <? len q); [|exact H]. destruct (pair_inner (len q) q t) as [[[m q'] t']|e|] eqn:E; cbn [bind]; try exact I.
  pose proof (pair_inner_inv _ _ _ _ _ _ H E) as H'. destruct (Z.land m 1 =? 1); [|exact H']. destruct q' as [|Il q']; [exact I|]. apply pinv_rot. exact H'.
Qed.
Lemma pinv_start E : pinv (map fresh E) [].
Proof.
  split; [|split].
  - rewrite app_nil_r. cbn. replace (zrefs (map fresh E)) with (@nil Z); [reflexivity|]. induction E; [reflexivity|assumption].
  - intros n c Hn. apply in_map_iff in Hn. destruct Hn as (k & <- & _). intros [].
  - intros [|i] n c Hn; discriminate.
Qed.

(** ** positions *)
Definition kidp (N : Z) (n : inode) : list nat := map (pos N) (zkids n).
Record wired (tree : list inode) : Prop := {
  w_perm : Permutation (flat_map (kidp (len tree)) tree) (seq 0 (length tree - 1));
  w_below : forall i n c, nth_error tree i = Some n -> In c (kidp (len tree) n) -> (c < i)%nat }.
Lemma wired_final Ir tree : pinv [Ir] tree -> n_left Ir = Some (len tree - 2) -> n_right Ir = Some (len tree - 1) -> (2 <= length tree)%nat ->
  wired (tree ++ [{| n_key := n_key Ir; n_left := Some (-3); n_right := Some (-2); n_data := n_data Ir |}]).
Proof.
  intros (P & B1 & B2) El Er Hl. set (root := {| n_key := n_key Ir; n_left := Some (-3); n_right := Some (-2); n_data := n_data Ir |}).
  assert (HN : len (tree ++ [root]) = len tree + 1) by (unfold len; rewrite app_length; cbn [length]; lia).
  assert (Hpos : forall i n c, nth_error tree i = Some n -> In c (zkids n) -> 0 <= c).
  { intros i n c Hn Hc. assert (Hin : In c (nseq (length tree))). { apply (Permutation_in _ P). rewrite zrefs_app. apply in_or_app. right. apply in_flat_map. exists n. split; [apply (nth_error_In _ _ Hn)|exact Hc]. }
    unfold nseq in Hin. apply in_map_iff in Hin. destruct Hin as (m & <- & _). lia. }
  assert (Hroot : kidp (len (tree ++ [root])) root = map Z.to_nat (zkids Ir)).
  { unfold kidp, zkids. rewrite El, Er, HN. cbn [root n_left n_right map]. unfold pos. change (-3 <? 0) with true. change (-2 <? 0) with true. cbv iota. replace (-3 + (len tree + 1)) with (len tree - 2) by lia. replace (-2 + (len tree + 1)) with (len tree - 1) by lia. reflexivity. }
  assert (Hold : forall N n i, nth_error tree i = Some n -> kidp N n = map Z.to_nat (zkids n)).
  { intros N n i Hn. unfold kidp. apply map_ext_in. intros c Hc. unfold pos. destruct (Z.ltb_spec c 0); [|reflexivity]. specialize (Hpos _ _ _ Hn Hc). lia. }
  split.
  - rewrite flat_map_app. cbn [flat_map]. rewrite app_nil_r, Hroot. replace (length (tree ++ [root]) - 1)%nat with (length tree) by (rewrite app_length; cbn [length]; lia).
    assert (E1 : flat_map (kidp (len (tree ++ [root]))) tree = map Z.to_nat (zrefs tree)).
    { generalize (len (tree ++ [root])) as N. intros N. unfold zrefs. rewrite (flat_map_concat_map _ tree), (flat_map_concat_map _ tree), concat_map, map_map. f_equal. apply map_ext_in. intros n Hn. apply In_nth_error in Hn. destruct Hn as [i Hn]. apply (Hold N n i Hn). }
    rewrite E1, <- map_app. assert (E2 : seq 0 (length tree) = map Z.to_nat (nseq (length tree))). { unfold nseq. rewrite map_map. rewrite <- (map_id (seq 0 (length tree))) at 1. apply map_ext. intros. symmetry. apply Nat2Z.id. }
    rewrite E2. apply Permutation_map. rewrite <- P. cbn [app]. unfold zrefs. cbn [flat_map]. apply Permutation_app_comm.
  - intros i n c Hn Hc. destruct (Nat.lt_ge_cases i (length tree)).
    + rewrite nth_error_app1 in Hn by assumption. rewrite (Hold _ _ _ Hn) in Hc. apply in_map_iff in Hc. destruct Hc as (z & <- & Hz). pose proof (B2 _ _ _ Hn Hz). pose proof (Hpos _ _ _ Hn Hz). lia.
    + rewrite nth_error_app2 in Hn by assumption. destruct (i - length tree)%nat as [|j] eqn:Ej; cbn in Hn; [injection Hn as <-|destruct j; discriminate].
      change {| n_key := n_key Ir; n_left := Some (-3); n_right := Some (-2); n_data := n_data Ir |} with root in Hc. rewrite Hroot in Hc. apply in_map_iff in Hc. destruct Hc as (z & <- & Hz).
      unfold zkids in Hz. rewrite El, Er in Hz. unfold len in Hz. destruct Hz as [<-|[<-|[]]]; lia.
Qed.
Lemma zkids_skel n n' : skel n = skel n' -> zkids n = zkids n'.
Proof. unfold skel, zkids. intros [= _ -> ->]. reflexivity. Qed.
Lemma nth_skel tree tree' i n : map skel tree' = map skel tree -> nth_error tree' i = Some n -> exists m, nth_error tree i = Some m /\ skel n = skel m.
Proof.
  intros E H. assert (Q : nth_error (map skel tree') i = nth_error (map skel tree) i) by congruence. rewrite !nth_error_map, H in Q. destruct (nth_error tree i) as [m|]; [|discriminate].
  cbn [option_map] in Q. exists m. split; [reflexivity|]. apply (f_equal (fun o => match o with Some x => x | None => skel n end)) in Q. exact Q.
Qed.
Lemma wired_skel tree tree' : map skel tree' = map skel tree -> wired tree -> wired tree'.
Proof.
  intros E [P B]. assert (L : length tree' = length tree) by (apply (f_equal (@length _)) in E; rewrite !map_length in E; exact E). assert (L2 : len tree' = len tree) by (unfold len; lia). split.
  - rewrite L, L2, <- P. apply eq_sym in E. generalize (len tree). intros N. clear - E. rewrite !flat_map_concat_map. enough (Q : map (kidp N) tree' = map (kidp N) tree) by (rewrite Q; reflexivity).
    revert tree' E. induction tree as [|n tree IH]; intros [|n' tree'] E; try discriminate; [reflexivity|]. cbn [map] in E. pose proof (f_equal (hd (skel n)) E) as E1. pose proof (f_equal (@tl _) E) as E2. cbn [hd tl] in E1, E2.
    cbn [map]. rewrite (IH _ E2). unfold kidp at 1 3. rewrite (zkids_skel _ _ E1). reflexivity.
  - intros i n c Hn Hc. destruct (nth_skel _ _ _ _ E Hn) as (m & Hm & Es). apply (B i m c Hm). unfold kidp in *. rewrite <- (zkids_skel _ _ Es), <- L2. exact Hc.
Qed.

(** a child has one parent, and its two children differ *)
Lemma flat_nodup {A B} (f : A -> list B) l : NoDup (flat_map f l) -> (forall i a, nth_error l i = Some a -> NoDup (f a)) /\  (forall i j a b c, nth_error l i = Some a -> nth_error l j = Some b -> In c (f a) -> In c (f b) -> i = j).
Proof.
  induction l as [|x l IH]; intros H; cbn [flat_map] in H; [split; [intros [|i]|intros [|i]]; discriminate|].
  assert (H1 : NoDup (f x)) by (revert H; generalize (flat_map f l); clear; induction (f x) as [|b g IHg]; intros t H; [constructor|]; cbn in H; inversion H; subst; constructor; [rewrite in_app_iff in *; tauto|apply (IHg t); assumption]).
  assert (H2 : NoDup (flat_map f l)) by (revert H; clear; induction (f x) as [|b g IHg]; intros H; [exact H|]; inversion H; subst; apply IHg; assumption).
  assert (H3 : forall c, In c (f x) -> In c (flat_map f l) -> False).
  { revert H. clear. induction (f x) as [|b g IHg]; intros H c Hc Hd; [destruct Hc|]. cbn in H. inversion H; subst. destruct Hc as [<-|Hc]; [apply H2; apply in_or_app; right; exact Hd|apply (IHg H3 c Hc Hd)]. }
  destruct (IH H2) as [A1 A2]. split.
  - intros [|i] a E; [injection E as <-; exact H1|apply (A1 i a E)].
  - intros [|i] [|j] a b c Ea Eb Ca Cb; cbn in Ea, Eb; [reflexivity| | |f_equal; apply (A2 i j a b c); assumption].
    + injection Ea as <-. exfalso. apply (H3 c Ca). apply in_flat_map. exists b. split; [apply (nth_error_In _ _ Eb)|exact Cb].
    + injection Eb as <-. exfalso. apply (H3 c Cb). apply in_flat_map. exists a. split; [apply (nth_error_In _ _ Ea)|exact Ca].
Qed.

Fixpoint lpos (N : Z) (t : lt) : list nat := pos N (lidx t) :: match t with LL _ _ => [] | LN _ l r => lpos N l ++ lpos N r end.
Lemma lpos_root N t : In (pos N (lidx t)) (lpos N t). Proof. destruct t; left; reflexivity. Qed.

Section W.
  Context (tree : list inode) (W : wired tree).
  Notation N := (len tree).
  Lemma one_parent q q' n n' c : nth_error tree q = Some n -> nth_error tree q' = Some n' -> In c (kidp N n) -> In c (kidp N n') -> q = q'.
  Proof. assert (H : NoDup (flat_map (kidp N) tree)) by (apply (Permutation_NoDup (Permutation_sym (w_perm _ W))), seq_NoDup). destruct (flat_nodup _ _ H) as [_ H2]. intros. eapply H2; eauto. Qed.
  Lemma kids_nodup q n : nth_error tree q = Some n -> NoDup (kidp N n).
  Proof. assert (H : NoDup (flat_map (kidp N) tree)) by (apply (Permutation_NoDup (Permutation_sym (w_perm _ W))), seq_NoDup). destruct (flat_nodup _ _ H) as [H1 _]. apply H1. Qed.
  Lemma root_node t : irep tree t -> exists n, nth_error tree (pos N (lidx t)) = Some n /\ n_key n = lkey t /\    kidp N n = match t with LL _ _ => [] | LN _ l r => [pos N (lidx l); pos N (lidx r)] end.
  Proof.
    intros R. destruct (irep_here _ _ R) as [d Hg]. destruct (lget_pos _ _ _ Hg) as [Hn _]. eexists. split; [exact Hn|]. split; [reflexivity|]. destruct t; reflexivity.
  Qed.
  Lemma lpos_parent t : irep tree t -> forall p, In p (lpos N t) -> p = pos N (lidx t) \/ exists q n, In q (lpos N t) /\ nth_error tree q = Some n /\ In p (kidp N n).
  Proof.
    induction t as [i k|i l IHl r IHr]; intros R p; cbn [lpos]; intros [<-|H]; auto; [destruct H|]. destruct (root_node _ R) as (n & Hn & _ & Hk). cbn [irep] in R. destruct R as (_ & Rl & Rr).
    right. apply in_app_iff in H. destruct H as [H|H].
    - destruct (IHl Rl p H) as [->|(q & m & H1 & H2 & H3)].
      + exists (pos N (lidx (LN i l r))), n. split; [left; reflexivity|]. split; [exact Hn|]. rewrite Hk. left. reflexivity.
      + exists q, m. split; [right; apply in_or_app; left; exact H1|auto].
    - destruct (IHr Rr p H) as [->|(q & m & H1 & H2 & H3)].
      + exists (pos N (lidx (LN i l r))), n. split; [left; reflexivity|]. split; [exact Hn|]. rewrite Hk. right. left. reflexivity.
      + exists q, m. split; [right; apply in_or_app; right; exact H1|auto].
  Qed.
  Lemma lpos_le t : irep tree t -> forall p, In p (lpos N t) -> (p <= pos N (lidx t))%nat.
  Proof.
    induction t as [i k|i l IHl r IHr]; intros R p; cbn [lpos]; intros [<-|H]; [lia|destruct H|cbn [lidx]; lia|]. destruct (root_node _ R) as (n & Hn & _ & Hk). cbn [irep] in R. destruct R as (_ & Rl & Rr).
    assert (B : forall c, In c (kidp N n) -> (c < pos N (lidx (LN i l r)))%nat) by (intros c; apply (w_below _ W _ _ _ Hn)). rewrite Hk in B.
    apply in_app_iff in H. destruct H as [H|H]; [specialize (IHl Rl p H); specialize (B _ (or_introl eq_refl))|specialize (IHr Rr p H); specialize (B _ (or_intror (or_introl eq_refl)))]; lia.
  Qed.
  Lemma lpos_lt t : irep tree t -> forall p, In p (lpos N t) -> (p < length tree)%nat.
  Proof. intros R p H. pose proof (lpos_le t R p H). destruct (root_node _ R) as (n & Hn & _). assert (pos N (lidx t) < length tree)%nat by (apply nth_error_Some; congruence). lia. Qed.
  Lemma lpos_disj i l r : irep tree (LN i l r) -> forall m p, (length tree - p <= m)%nat -> In p (lpos N l) -> In p (lpos N r) -> False.
  Proof.
    intros R. destruct (root_node _ R) as (n & Hn & _ & Hk). pose proof (kids_nodup _ _ Hn) as ND. rewrite Hk in ND. assert (R0 := R). cbn [irep] in R. destruct R as (_ & Rl & Rr).
    assert (B : forall c, In c (kidp N n) -> (c < pos N (lidx (LN i l r)))%nat) by (intros c; apply (w_below _ W _ _ _ Hn)).
    assert (Hl : In (pos N (lidx l)) (kidp N n)) by (rewrite Hk; left; reflexivity). assert (Hr : In (pos N (lidx r)) (kidp N n)) by (rewrite Hk; right; left; reflexivity).
    induction m as [|m IH]; intros p Hm H1 H2; [pose proof (lpos_lt l Rl p H1); lia|].
    destruct (lpos_parent l Rl p H1) as [E1|(q1 & n1 & A1 & B1 & C1)], (lpos_parent r Rr p H2) as [E2|(q2 & n2 & A2 & B2 & C2)].
    - inversion ND as [|? ? X _]; subst. apply X. left. congruence.
    - subst p. pose proof (one_parent _ _ _ _ _ Hn B2 Hl C2) as Eq. rewrite <- Eq in A2. pose proof (lpos_le r Rr _ A2). specialize (B _ Hr). lia.
    - subst p. pose proof (one_parent _ _ _ _ _ Hn B1 Hr C1) as Eq. rewrite <- Eq in A1. pose proof (lpos_le l Rl _ A1). specialize (B _ Hl). lia.
    - pose proof (one_parent _ _ _ _ _ B1 B2 C1 C2) as Eq. rewrite <- Eq in A2, B2. apply (IH q1); [|exact A1|exact A2]. pose proof (w_below _ W _ _ _ B2 C2). lia.
  Qed.
  Lemma lpos_nodup t : irep tree t -> NoDup (lpos N t).
  Proof.
    induction t as [i k|i l IHl r IHr]; intros R; cbn [lpos]; [repeat constructor; intros []|]. destruct (root_node _ R) as (n & Hn & _ & Hk). assert (R0 := R). cbn [irep] in R. destruct R as (_ & Rl & Rr).
    assert (B : forall c, In c (kidp N n) -> (c < pos N (lidx (LN i l r)))%nat) by (intros c; apply (w_below _ W _ _ _ Hn)). rewrite Hk in B. constructor.
    - intros H. apply in_app_iff in H. destruct H as [H|H]; [pose proof (lpos_le l Rl _ H); specialize (B _ (or_introl eq_refl))|pose proof (lpos_le r Rr _ H); specialize (B _ (or_intror (or_introl eq_refl)))]; lia.
    - specialize (IHl Rl). specialize (IHr Rr). pose proof (fun p => lpos_disj i l r R0 (length tree - p) p ltac:(lia)) as D. revert IHl D. generalize (lpos N l) as L. induction L as [|x L IH]; intros HL D; [exact IHr|].
      cbn [app]. inversion HL; subst. constructor; [rewrite in_app_iff; intros [|H]; [contradiction|apply (D x); [left; reflexivity|exact H]]|apply IH; [assumption|]]. intros p Hp. apply D. right. exact Hp.
  Qed.
  Lemma lpos_kid t : irep tree t -> forall q n c, In q (lpos N t) -> nth_error tree q = Some n -> In c (kidp N n) -> In c (lpos N t).
  Proof.
    induction t as [i k|i l IHl r IHr]; intros R q n c; cbn [lpos]; intros [Eq|H] Hn Hc; [|destruct H| |].
    - destruct (root_node _ R) as (m & Hm & _ & Hk). cbn [lidx] in *. rewrite Eq in Hm. rewrite Hn in Hm. injection Hm as <-. rewrite Hk in Hc. destruct Hc.
    - destruct (root_node _ R) as (m & Hm & _ & Hk). rewrite Eq in Hm. rewrite Hn in Hm. injection Hm as <-. rewrite Hk in Hc. right. apply in_or_app.
      destruct Hc as [<-|[<-|[]]]; [left|right]; apply lpos_root.
    - cbn [irep] in R. destruct R as (_ & Rl & Rr). right. apply in_or_app. apply in_app_iff in H. destruct H as [H|H]; [left; apply (IHl Rl q n c H Hn Hc)|right; apply (IHr Rr q n c H Hn Hc)].
  Qed.
  Lemma lpos_all t : irep tree t -> lidx t = -1 -> forall m p, (length tree - p <= m)%nat -> (p < length tree)%nat -> In p (lpos N t).
  Proof.
    intros R E. induction m as [|m IH]; intros p Hm Hp; [lia|]. destruct (Nat.eq_dec p (length tree - 1)) as [->|].
    - replace (length tree - 1)%nat with (pos N (lidx t)); [apply lpos_root|]. rewrite E. unfold pos. change (-1 <? 0) with true. cbv iota. unfold len. lia.
    - assert (Hin : In p (flat_map (kidp N) tree)) by (apply (Permutation_in _ (Permutation_sym (w_perm _ W))), in_seq; lia).
      apply in_flat_map in Hin. destruct Hin as (nd & Hn & Hc). apply In_nth_error in Hn. destruct Hn as [q Hn]. pose proof (w_below _ W _ _ _ Hn Hc). assert (q < length tree)%nat by (apply nth_error_Some; congruence).
      apply (lpos_kid t R q nd p); [apply IH; lia|exact Hn|exact Hc].
  Qed.
End W.
