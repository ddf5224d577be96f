(** Proofs about trees: representation of linked nodes by inductive trees, zippers, rotations. *)
From Coq Require Import Sorted.
From Verif Require Import Base TreeModel.

Section TP.
  Context {D : Type}.
  Notation info := (info D). Notation node := (node D). Notation mem := (mem D). Notation bst := (bst D).

  (** ** cells *)
  Definition cell (m : mem) (i : Z) : option node := match aget m i with Ret (Some n) => Some n | _ => None end.
  Definition inb (m : mem) (i : Z) : Prop := 0 <= i < len m.
  Lemma cell_inb m i n : cell m i = Some n -> inb m i.
  Proof. unfold cell, aget, inb. destruct (Z.ltb_spec i 0), (Z.leb_spec (len m) i); cbn [orb]; try discriminate. intros _. lia. Qed.
  Lemma cell_zn m i : inb m i -> cell m i = zn None m i.
  Proof. intros H. unfold cell. rewrite (aget_ok _ None) by exact H. destruct (zn None m i); reflexivity. Qed.
  Lemma tget_ok m i n : cell m i = Some n -> tget m (Some i) = Ret n.
  Proof. unfold cell, tget. destruct (aget m i) as [[x|]| |]; cbn [bind]; congruence. Qed.
  Lemma tget_inv m i n : tget m (Some i) = Ret n -> cell m i = Some n.
  Proof. unfold cell, tget. destruct (aget m i) as [[x|]| |]; cbn [bind]; congruence. Qed.
  Lemma inb_zupd m i v k : inb (zupd m i v) k <-> inb m k.
  Proof. unfold inb. rewrite len_zupd. reflexivity. Qed.
  Lemma cell_zupd m i v k : inb m i -> cell (zupd m i v) k = if k =? i then v else cell m k.
  Proof.
    intros Hi. destruct (Z.eqb_spec k i) as [->|N].
    - rewrite cell_zn by (apply inb_zupd; exact Hi). apply zn_zupd_eq. exact Hi.
    - unfold cell, aget. rewrite len_zupd. destruct ((k <? 0) || (len m <=? k)) eqn:Ek; [reflexivity|]. apply orb_false_iff in Ek as [E1 E2]. apply Z.ltb_ge in E1. apply Z.leb_gt in E2.
      unfold zupd. rewrite nth_error_upd. destruct (Nat.eqb_spec (Z.to_nat i) (Z.to_nat k)) as [E|E]; [unfold inb in Hi; lia|reflexivity].
  Qed.
  Lemma tmod_ok m i f n : cell m i = Some n -> tmod m (Some i) f = Ret (zupd m i (Some (f n))).
  Proof. intros H. unfold tmod. rewrite (tget_ok _ _ _ H). cbn [bind]. apply aset_ok. apply (cell_inb _ _ _ H). Qed.

  (** ** trees *)
  Inductive bt := E | N (l : bt) (i : Z) (x : info) (r : bt).
  Definition root (T : bt) : option Z := match T with E => None | N _ i _ _ => Some i end.
  Fixpoint idx (T : bt) : list Z := match T with E => [] | N l i _ r => idx l ++ i :: idx r end.
  Fixpoint infos (T : bt) : list info := match T with E => [] | N l _ x r => infos l ++ x :: infos r end.
  Fixpoint nodes (T : bt) : Z := match T with E => 0 | N l _ _ r => nodes l + nodes r + 1 end.
  Fixpoint rep (m : mem) (T : bt) (p : option Z) : Prop :=
    match T with
    | E => True
    | N l i x r => cell m i = Some (mknode x (root l) (root r) p) /\ rep m l (Some i) /\ rep m r (Some i)
    end.
  Inductive ctx := Top | CL (c : ctx) (i : Z) (x : info) (r : bt) | CR (c : ctx) (l : bt) (i : Z) (x : info).
  Fixpoint plug (c : ctx) (T : bt) : bt := match c with Top => T | CL c i x r => plug c (N T i x r) | CR c l i x => plug c (N l i x T) end.
  Definition cpar (c : ctx) : option Z := match c with Top => None | CL _ i _ _ | CR _ _ i _ => Some i end.
  Fixpoint cidx (c : ctx) : list Z := match c with Top => [] | CL c i _ r => i :: idx r ++ cidx c | CR c l i _ => idx l ++ i :: cidx c end.
  Fixpoint crep (m : mem) (c : ctx) (h : option Z) : Prop :=
    match c with
    | Top => True
    | CL c i x r => cell m i = Some (mknode x h (root r) (cpar c)) /\ rep m r (Some i) /\ crep m c (Some i)
    | CR c l i x => cell m i = Some (mknode x (root l) h (cpar c)) /\ rep m l (Some i) /\ crep m c (Some i)
    end.
  (** in-order neighbours of the hole *)
  Fixpoint cl (c : ctx) : list info := match c with Top => [] | CL c _ _ _ => cl c | CR c l _ x => cl c ++ infos l ++ [x] end.
  Fixpoint cr (c : ctx) : list info := match c with Top => [] | CL c _ x r => x :: infos r ++ cr c | CR c _ _ _ => cr c end.

  Lemma rep_plug m c : forall T, rep m (plug c T) None <-> crep m c (root T) /\ rep m T (cpar c).
  Proof.
    induction c as [|c IH i x r|c IH l i x]; intros T; cbn [plug crep cpar]; [tauto|..]; rewrite IH; cbn [rep root]; tauto.
  Qed.
  Lemma infos_plug c : forall T, infos (plug c T) = cl c ++ infos T ++ cr c.
  Proof.
    induction c as [|c IH i x r|c IH l i x]; intros T; cbn [plug cl cr]; [rewrite app_nil_r; reflexivity|..]; rewrite IH; cbn [infos]; rewrite <- !app_assoc; reflexivity.
  Qed.
  Lemma root_plug c : forall T T', (c = Top -> root T = root T') -> root (plug c T) = root (plug c T').
  Proof. induction c as [|c IH j x r|c IH l j x]; intros T T' H; cbn [plug]; [apply H; reflexivity|apply IH; reflexivity|apply IH; reflexivity]. Qed.

  (** occurrences of an index: disjointness by arithmetic *)
  Definition cnt (x : Z) (l : list Z) : nat := count_occ Z.eq_dec l x.
  Lemma cnt_app x a b : cnt x (a ++ b) = (cnt x a + cnt x b)%nat.
  Proof. apply count_occ_app. Qed.
  Lemma cnt_cons x i l : cnt x (i :: l) = ((if (x =? i)%Z then 1 else 0) + cnt x l)%nat.
  Proof. unfold cnt. cbn [count_occ]. destruct (Z.eq_dec i x), (Z.eqb_spec x i); subst; try congruence; reflexivity. Qed.
  Lemma cnt_nil x : cnt x [] = 0%nat.
  Proof. reflexivity. Qed.
  Lemma cnt_In x l : In x l <-> (1 <= cnt x l)%nat.
  Proof. unfold cnt. rewrite (count_occ_In Z.eq_dec). lia. Qed.
  Lemma nodup_cnt l : NoDup l <-> forall x, (cnt x l <= 1)%nat.
  Proof. apply NoDup_count_occ. Qed.
  Lemma cnt_plug x c : forall T, cnt x (idx (plug c T)) = (cnt x (cidx c) + cnt x (idx T))%nat.
  Proof.
    induction c as [|c IH i y r|c IH l i y]; intros T; cbn [plug cidx]; [reflexivity|..]; rewrite IH; cbn [idx]; rewrite ?cnt_app, ?cnt_cons, ?cnt_app; lia.
  Qed.
  Lemma root_In T i : root T = Some i -> In i (idx T).
  Proof. destruct T; [discriminate|]. cbn [root idx]. intros [= ->]. apply in_or_app. right. left. reflexivity. Qed.
  Lemma cpar_In c i : cpar c = Some i -> In i (cidx c).
  Proof. destruct c; cbn [cpar cidx]; [discriminate|intros [= ->]; left; reflexivity|intros [= ->]; apply in_or_app; right; left; reflexivity]. Qed.

  Lemma rep_ext m m' T : forall p, (forall i, In i (idx T) -> cell m' i = cell m i) -> rep m T p -> rep m' T p.
  Proof.
    induction T as [|l IHl i x r IHr]; intros p H; cbn [rep idx] in *; [tauto|]. intros (A & B & C).
    split; [rewrite H by (apply in_or_app; right; left; reflexivity); exact A|]. split; [apply IHl|apply IHr]; try assumption; intros k Hk; apply H; apply in_or_app; [left; exact Hk|right; right; exact Hk].
  Qed.
  Lemma crep_ext m m' c : forall h, (forall i, In i (cidx c) -> cell m' i = cell m i) -> crep m c h -> crep m' c h.
  Proof.
    induction c as [|c IH i x r|c IH l i x]; intros h H; cbn [crep cidx] in *; [tauto|..]; intros (A & B & C).
    - split; [rewrite H by (left; reflexivity); exact A|]. split; [eapply rep_ext; [|exact B]; intros k Hk; apply H; right; apply in_or_app; left; exact Hk|].
      apply IH; [|exact C]. intros k Hk. apply H. right. apply in_or_app. right. exact Hk.
    - split; [rewrite H by (apply in_or_app; right; left; reflexivity); exact A|]. split; [eapply rep_ext; [|exact B]; intros k Hk; apply H; apply in_or_app; left; exact Hk|].
      apply IH; [|exact C]. intros k Hk. apply H. apply in_or_app. right. right. exact Hk.
  Qed.
  Lemma rep_cell m T p i : rep m T p -> In i (idx T) -> exists n, cell m i = Some n.
  Proof.
    revert p. induction T as [|l IHl j x r IHr]; intros p; cbn [rep idx]; [intros _ []|]. intros (A & B & C) H. apply in_app_or in H as [H|[<-|H]]; eauto.
  Qed.
  Lemma nodes_len T : nodes T = len (idx T).
  Proof. induction T as [|l IHl j x r IHr]; [reflexivity|]. cbn [nodes idx]. rewrite IHl, IHr. unfold len. rewrite app_length. cbn [length]. lia. Qed.
  Lemma infos_len T : len (infos T) = nodes T.
  Proof. induction T as [|l IHl j x r IHr]; [reflexivity|]. cbn [nodes infos]. rewrite <- IHl, <- IHr. unfold len. rewrite app_length. cbn [length]. lia. Qed.
  Lemma nodes_nonneg T : 0 <= nodes T.
  Proof. rewrite nodes_len. apply len_nonneg. Qed.
  Lemma nodes_mem m T p : rep m T p -> NoDup (idx T) -> nodes T <= len m.
  Proof.
    intros HR ND. rewrite nodes_len. assert (incl (idx T) (zrange 0 (len m))).
    { intros i Hi. destruct (rep_cell m T p i HR Hi) as [n Hn]. apply zrange_in. apply (cell_inb _ _ _ Hn). }
    apply NoDup_incl_length in H; [|exact ND]. rewrite zrange_length in H. unfold len in *. lia.
  Qed.
  Lemma nodes_plug c : forall T T', nodes (plug c T) - nodes T = nodes (plug c T') - nodes T'.
  Proof. induction c as [|c IH i x r|c IH l i x]; intros T T'; cbn [plug]; [lia|..]; [specialize (IH (N T i x r) (N T' i x r))|specialize (IH (N l i x T) (N l i x T'))]; cbn [nodes] in IH; lia. Qed.
  Lemma nodes_plug_le c T : nodes T <= nodes (plug c T).
  Proof. revert T. induction c as [|c IH i x r|c IH l i x]; intros T; cbn [plug]; [lia|..]; [specialize (IH (N T i x r)); pose proof (nodes_nonneg r)|specialize (IH (N l i x T)); pose proof (nodes_nonneg l)]; cbn [nodes] in IH; lia. Qed.

  (** the whole structure: nodes of T linked, each index once, root *)
  Definition tree_at (m : mem) (rt : option Z) (T : bt) : Prop := rep m T None /\ NoDup (idx T) /\ rt = root T.
End TP.
Arguments bt : clear implicits. Arguments ctx : clear implicits.
Ltac cnts := rewrite ?cnt_plug in *; cbn [idx cidx] in *; repeat (first [rewrite cnt_app in *|rewrite cnt_cons in *|rewrite cnt_nil in *]).
