(** OneDimensionalSegmentTree: stabbing queries are exact. *)
From Verif Require Import Base ArraysProofs IntervalModel IntervalSpec FenwickProofs SegTreeProofs.

(** ** elementary intervals *)
Definition opn a b := IK false a b false.
Definition cls a := IK true a a true.
Fixpoint elems (prev : Z) (es : list Z) : list ikey := match es with [] => [] | e :: es => opn prev e :: cls e :: elems e es end.
Definition elem_all (one : Z) (es : list Z) : list ikey :=
  match es with [] => [] | e :: _ => elems (e - one) es ++ [opn (last es e) (last es e + one)] end.
Fixpoint zsorted (l : list Z) : Prop := match l with [] => True | x :: l => (forall y, In y l -> x <= y) /\ zsorted l end.

Lemma zinsert_in x l y : In y (zinsert x l) <-> y = x \/ In y l.
Proof. induction l as [|z l IH]; simpl; [intuition|]. destruct (Z.leb_spec x z); simpl; [intuition|]. rewrite IH. intuition. Qed.
Lemma zinsert_sorted x l : zsorted l -> zsorted (zinsert x l).
Proof.
  induction l as [|z l IH]; intros H; simpl; [split; [intros y []|exact I]|]. destruct H as [H1 H2]. destruct (Z.leb_spec x z).
  - split; [|split; assumption]. intros y [<-|Hy]; [lia|]. specialize (H1 y Hy). lia.
  - split; [|apply IH, H2]. intros y Hy. apply zinsert_in in Hy. destruct Hy as [->|Hy]; [lia|apply H1, Hy].
Qed.
Lemma zsort_in l y : In y (zsort l) <-> In y l.
Proof. induction l as [|x l IH]; simpl; [tauto|]. rewrite zinsert_in, IH. intuition. Qed.
Lemma zsort_sorted l : zsorted (zsort l).
Proof. induction l as [|x l IH]; simpl; [exact I|]. apply zinsert_sorted, IH. Qed.
Lemma zsort_len l : length (zsort l) = length l.
Proof. induction l as [|x l IH]; simpl; [reflexivity|]. rewrite <- IH. generalize (zsort l). clear. induction l as [|y l IH]; simpl; [reflexivity|]. destruct (x <=? y); simpl; auto. Qed.

Lemma elems_hi es : forall prev x, zsorted es -> (forall e, In e es -> x <= e) -> forall k, In k (elems prev es) -> x <= k_hi k.
Proof.
  induction es as [|e es IH]; intros prev x S H k; [intros []|]. destruct S as [S1 S2]. pose proof (H e (or_introl eq_refl)).
  intros [<-|[<-|Hk]]; simpl; [lia|lia|]. apply (IH e x S2); [|exact Hk]. intros e' He'. apply H. right. exact He'.
Qed.
Lemma last_in (es : list Z) d : es <> [] -> In (last es d) es.
Proof. induction es as [|e es IH]; intros H; [contradiction|]. destruct es as [|e' es]; [left; reflexivity|]. right. apply IH. discriminate. Qed.

(** the leaf whose path both the insertions and the query follow *)
Definition good_leaf (es : list Z) (x : Z) (k : ikey) : Prop :=
  x <= k_hi k /\ (k_lo k < x \/ (k_lo k = x /\ k_cl k = true)) /\
  (forall a b, In a es -> In b es -> a <= x <= b -> a <= k_lo k /\ k_hi k <= b).
Lemma find_leaf es : forall prev x all, zsorted es -> (forall e, In e es -> prev <= e) -> es <> [] -> prev < x -> x <= last es 0 -> (forall e, In e all -> e <= prev \/ In e es) ->
  exists pre k post, elems prev es = pre ++ k :: post /\ (forall j, In j pre -> k_lo j < x) /\ (forall j, In j post -> x <= k_hi j) /\ good_leaf all x k.
Proof.
  induction es as [|e es IH]; intros prev x all S Hpe Hne Hp Hx Hall; [contradiction|]. pose proof (Hpe e (or_introl eq_refl)) as Hpe0. destruct S as [S1 S2]. cbn [elems].
  assert (Hpost : forall k, In k (elems e es) -> e <= k_hi k) by (apply (elems_hi es e e S2); exact S1).
  destruct (Z.lt_trichotomy x e) as [Hlt|[->|Hgt]].
  - exists [], (opn prev e), (cls e :: elems e es). split; [reflexivity|]. split; [intros j []|]. split; [intros j [<-|Hj]; [simpl; lia|specialize (Hpost j Hj); lia]|].
    split; [simpl; lia|]. split; [left; simpl; lia|]. intros a b Ha Hb Hab. simpl. split.
    + destruct (Hall a Ha) as [|[<-|Ha']]; [lia|lia|]. specialize (S1 a Ha'). lia.
    + destruct (Hall b Hb) as [|[<-|Hb']]; [lia|lia|]. apply S1, Hb'.
  - exists [opn prev e], (cls e), (elems e es). split; [reflexivity|]. split; [intros j [<-|[]]; exact Hp|]. split; [exact Hpost|].
    split; [simpl; lia|]. split; [right; split; reflexivity|]. simpl. intros; lia.
  - destruct es as [|e' es']; [simpl in Hx; lia|]. destruct (IH e x all S2) as (pre & k & post & E & H1 & H2 & H3).
    + exact S1.
    + discriminate.
    + exact Hgt.
    + exact Hx.
    + intros y Hy. destruct (Hall y Hy) as [|[<-|Hy']]; [left; lia|left; lia|right; exact Hy'].
    + exists (opn prev e :: cls e :: pre), k, post. split; [rewrite E; reflexivity|]. split; [|split; assumption]. intros j [<-|[<-|Hj]]; [simpl; lia|simpl; lia|auto].
Qed.

Lemma last_default (es : list Z) d d' : es <> [] -> last es d = last es d'.
Proof. induction es as [|e es IH]; intros H; [contradiction|]. destruct es; [reflexivity|]. apply IH. discriminate. Qed.

Lemma find_leaf_all one es x a b : 0 < one -> zsorted es -> In a es -> In b es -> a <= x <= b ->
  exists pre k post, elem_all one es = pre ++ k :: post /\ (forall j, In j pre -> k_lo j < x) /\ (forall j, In j post -> x <= k_hi j) /\ good_leaf es x k.
Proof.
  intros Ho S Ha Hb Hx. destruct es as [|e es]; [destruct Ha|]. set (E := e :: es) in *.
  assert (Hlast : forall y, In y E -> y <= last E 0).
  { clear - S. revert S. generalize E as l. induction l as [|z l IH]; intros S y Hy; [destruct Hy|]. destruct S as [S1 S2]. destruct l as [|z' l]; [destruct Hy as [<-|[]]; simpl; lia|].
    change (last (z :: z' :: l) 0) with (last (z' :: l) 0). destruct Hy as [<-|Hy]; [|apply IH; assumption]. specialize (IH S2 z' (or_introl eq_refl)). specialize (S1 z' (or_introl eq_refl)). lia. }
  assert (Hmin : forall y, In y E -> e <= y) by (intros y [<-|Hy]; [lia|apply S, Hy]).
  pose proof (Hlast b Hb). pose proof (Hmin a Ha).
  destruct (find_leaf E (e - one) x E S) as (pre & k & post & Eq & H1 & H2 & H3); [intros y Hy; specialize (Hmin y Hy); lia|discriminate|lia|lia|auto|].
  exists pre, k, (post ++ [opn (last E e) (last E e + one)]). split; [unfold elem_all, E; fold E; rewrite Eq, <- app_assoc; reflexivity|].
  split; [exact H1|]. split; [|exact H3]. intros j Hj. apply in_app_iff in Hj. destruct Hj as [Hj|[<-|[]]]; [auto|]. unfold opn; cbn [k_hi]. rewrite (last_default E e 0) by discriminate. lia.
Qed.

(** ** abstract trees *)
Inductive ut := UL (k : ikey) | UN (l r : ut).
Fixpoint ukey (t : ut) : ikey := match t with UL k => k | UN l r => IK (k_cl (ukey l)) (k_lo (ukey l)) (k_hi (ukey r)) (k_cr (ukey r)) end.
Fixpoint uleaves (t : ut) : list ikey := match t with UL k => [k] | UN l r => uleaves l ++ uleaves r end.
Fixpoint usize (t : ut) : nat := match t with UL _ => 1 | UN l r => S (usize l + usize r) end.
Lemma usize_pos t : (1 <= usize t)%nat. Proof. destruct t; simpl; lia. Qed.

(** a node of the pairing phase stands for a tree *)
Fixpoint nrep (tree : list inode) (n : inode) (t : ut) : Prop :=
  n_key n = ukey t /\ n_data n = None /\
  match t with
  | UL _ => n_left n = None /\ n_right n = None
  | UN l r => exists i j nl nr, n_left n = Some i /\ n_right n = Some j /\ 0 <= i /\ 0 <= j /\ lget tree i = Ret nl /\ lget tree j = Ret nr /\ nrep tree nl l /\ nrep tree nr r
  end.
Lemma lget_inv {V} (a : list V) i v : lget a i = Ret v -> 0 <= i -> 0 <= i < len a /\ nth_error a (Z.to_nat i) = Some v.
Proof.
  unfold lget, aget. intros H Hi. destruct (Z.ltb_spec i 0); [lia|]. destruct (Z.ltb_spec i 0); [lia|]. simpl in H. destruct (Z.leb_spec (len a) i); [discriminate|].
  destruct (nth_error a (Z.to_nat i)); [|discriminate]. injection H as ->. split; [lia|reflexivity].
Qed.
Lemma lget_nth {V} (a : list V) i v : 0 <= i -> nth_error a (Z.to_nat i) = Some v -> lget a i = Ret v.
Proof.
  intros Hi H. assert (Hl : (Z.to_nat i < length a)%nat) by (apply nth_error_Some; congruence). unfold lget, aget. destruct (Z.ltb_spec i 0); [lia|]. destruct (Z.ltb_spec i 0); [lia|].
  simpl. destruct (Z.leb_spec (len a) i); [unfold len in *; lia|]. rewrite H. reflexivity.
Qed.
Lemma lget_app {V} (a b : list V) i v : lget a i = Ret v -> 0 <= i -> lget (a ++ b) i = Ret v.
Proof. intros H Hi. destruct (lget_inv _ _ _ H Hi) as [Hl E]. apply lget_nth; [exact Hi|]. rewrite nth_error_app1 by (unfold len in Hl; lia). exact E. Qed.
Lemma nrep_app tree more t : forall n, nrep tree n t -> nrep (tree ++ more) n t.
Proof.
  induction t as [k|l IHl r IHr]; intros n H; cbn [nrep] in *; [exact H|]. destruct H as (H1 & H2 & i & j & nl & nr & A & B & C & D & E & F & G & K).
  split; [exact H1|]. split; [exact H2|]. exists i, j, nl, nr. repeat split; auto using lget_app.
Qed.
Lemma nrep_data tree n t : nrep tree n t -> n_data n = None. Proof. destruct t; cbn [nrep]; tauto. Qed.
Lemma nrep_key tree n t : nrep tree n t -> n_key n = ukey t. Proof. destruct t; cbn [nrep]; tauto. Qed.

Definition usum (us : list ut) : nat := fold_right (fun u s => (usize u + s)%nat) 0%nat us.
Lemma usum_app a b : usum (a ++ b) = (usum a + usum b)%nat.
Proof. induction a as [|u a IH]; simpl; [reflexivity|]. rewrite IH. lia. Qed.
Definition uall (us : list ut) : list ikey := concat (map uleaves us).
Lemma uall_app a b : uall (a ++ b) = uall a ++ uall b.
Proof. unfold uall. rewrite map_app, concat_app. reflexivity. Qed.

Lemma Forall2_impl {A B} (R R' : A -> B -> Prop) : (forall a b, R a b -> R' a b) -> forall l l', Forall2 R l l' -> Forall2 R' l l'.
Proof. intros H l l' F. induction F; constructor; auto. Qed.
Definition last_made (tree done : list inode) : Prop := done = [] \/ exists d n, done = d ++ [n] /\ n_left n = Some (len tree - 2) /\ n_right n = Some (len tree - 1).

Lemma pair_inner_ok E queue tree us : (2 <= length queue)%nat -> Forall2 (nrep tree) queue us -> uall us = E -> Forall (fun n => n_data n = None) tree ->
  usum us = (length tree + length queue)%nat ->
  wp (pair_inner (len queue) queue tree) (fun '(m, queue', tree') => (m = 0 \/ m = 1) /\ exists rem done ur ud, queue' = rem ++ done /\ len rem = m /\
    Forall2 (nrep tree') rem ur /\ Forall2 (nrep tree') done ud /\ uall (ud ++ ur) = E /\ Forall (fun n => n_data n = None) tree' /\
    usum (ud ++ ur) = (length tree' + length queue')%nat /\ last_made tree' done /\ 2 * len done + m = len queue).
Proof.
  intros H2 HF HE Hd Hs. unfold pair_inner.
  apply wp_while with (I := fun '(m, queue', tree') => exists rem done ur ud, queue' = rem ++ done /\ len rem = m /\
    Forall2 (nrep tree') rem ur /\ Forall2 (nrep tree') done ud /\ uall (ud ++ ur) = E /\ Forall (fun n => n_data n = None) tree' /\
    usum (ud ++ ur) = (length tree' + length queue')%nat /\ last_made tree' done /\ 2 * len done + m = len queue) (m := fun '(m, q, t) => Z.to_nat m).
  - intros [[m q] t] (rem & done & ur & ud & -> & Em & F1 & F2 & El & D & S & L & C). destruct (Z.leb_spec 2 m).
    + destruct rem as [|I1 [|I2 rem]]; [unfold len in Em; simpl in Em; lia|unfold len in Em; simpl in Em; lia|]. cbn [app wp].
      inversion F1 as [|? u1 ? ur' N1 F1']; subst. inversion F1' as [|? u2 ? ur'' N2 F1'']; subst.
      set (I := {| n_key := n_key (iunion I1 I2); n_left := Some (len t); n_right := Some (len t + 1); n_data := None |}).
      split; [|unfold len in *; cbn [length] in *; lia].
      exists rem, (done ++ [I]), ur'', (ud ++ [UN u1 u2]). split; [rewrite app_assoc; reflexivity|]. split; [unfold len in *; cbn [length] in *; lia|].
      split; [revert F1''; apply Forall2_impl; intros; apply nrep_app; assumption|]. split.
      { apply Forall2_app; [revert F2; apply Forall2_impl; intros; apply nrep_app; assumption|]. constructor; [|constructor]. cbn [nrep ukey].
        split; [unfold I, iunion; cbn; rewrite (nrep_key _ _ _ N1), (nrep_key _ _ _ N2); reflexivity|]. split; [reflexivity|].
        exists (len t), (len t + 1), I1, I2. split; [reflexivity|]. split; [reflexivity|]. pose proof (len_nonneg _ t). split; [lia|]. split; [lia|].
        split; [apply lget_nth; [lia|]; rewrite nth_error_app2 by (unfold len; lia); unfold len; rewrite Nat2Z.id, Nat.sub_diag; reflexivity|].
        split; [apply lget_nth; [lia|]; rewrite nth_error_app2 by (unfold len; lia); unfold len; replace (Z.to_nat (Z.of_nat (length t) + 1) - length t)%nat with 1%nat by lia; reflexivity|].
        split; apply nrep_app; assumption. }
      split; [rewrite !uall_app in *; cbn [uall map concat] in *; unfold uall in *; cbn [map concat uleaves] in *; rewrite ?app_nil_r, <- ?app_assoc; exact El|].
      split; [apply Forall_app; split; [exact D|repeat constructor; [apply (nrep_data _ _ _ N1)|apply (nrep_data _ _ _ N2)]]|].
      split; [rewrite !usum_app in *; cbn [usum fold_right usize] in *; rewrite !app_length in *; cbn [length] in *; unfold usum in *; lia|].
      split; [right; exists done, I; split; [reflexivity|]; unfold I; cbn; unfold len; rewrite app_length; cbn [length]; split; f_equal; lia|].
      unfold len in *. rewrite app_length. cbn [length] in *. lia.
    + cbn [wp]. split; [pose proof (len_nonneg _ rem); lia|]. exists rem, done, ur, ud. repeat (split; [assumption || reflexivity|]). exact C.
  - exists queue, [], us, []. rewrite app_nil_r. cbn [app]. repeat (split; [assumption || reflexivity || constructor; reflexivity|]). unfold len. cbn [length]. lia.
  - unfold len. lia.
Qed.
Lemma Forall2_len {A B} (R : A -> B -> Prop) l l' : Forall2 R l l' -> length l = length l'.
Proof. induction 1; simpl; congruence. Qed.

Lemma pair_up_ok queue us : (2 <= length queue)%nat -> Forall2 (nrep []) queue us -> usum us = length queue ->
  wp (pair_up queue) (fun '(q, tree) => exists Ir l r, q = [Ir] /\ nrep tree Ir (UN l r) /\ uleaves (UN l r) = uall us /\ usize (UN l r) = S (length tree) /\
    n_left Ir = Some (len tree - 2) /\ n_right Ir = Some (len tree - 1) /\ Forall (fun n => n_data n = None) tree).
Proof.
  intros H2 HF Hs. unfold pair_up.
  apply wp_while with (I := fun '(q, tree) => (1 <= length q <= length queue)%nat /\ exists us', Forall2 (nrep tree) q us' /\ uall us' = uall us /\ usum us' = (length tree + length q)%nat /\
    Forall (fun n => n_data n = None) tree /\ ((2 <= length q)%nat \/ exists Ir, q = [Ir] /\ n_left Ir = Some (len tree - 2) /\ n_right Ir = Some (len tree - 1)))
    (m := fun '(q, t) => length q).
  - intros [q tree] (Hq & us' & F & El & S & D & L). destruct (Z.ltb_spec 1 (len q)).
    + apply wp_bind. eapply wp_mono; [apply (pair_inner_ok (uall us) q tree us'); [unfold len in H; lia|exact F|exact El|exact D|exact S]|].
      intros [[m q'] tree'] (Hm & rem & done & ur & ud & -> & Er & F1 & F2 & El' & D' & S' & L' & C). unfold len in H.
      destruct Hm as [-> | ->].
      * change (Z.land 0 1 =? 1) with false. cbv iota. cbn [wp]. destruct rem; [|unfold len in Er; cbn [length] in Er; lia]. inversion F1; subst. cbn [app] in *. rewrite app_nil_r in *.
        unfold len in C. split; [|lia]. split; [lia|]. exists ud. repeat (split; [assumption|]). destruct L' as [->|(d & n & -> & A & B)]; [simpl in C; lia|].
        destruct d as [|n' d]; [right; exists n; auto|left; rewrite app_length; simpl; lia].
      * change (Z.land 1 1 =? 1) with true. cbv iota. destruct rem as [|Il [|]]; [unfold len in Er; cbn [length] in Er; lia| |unfold len in Er; cbn [length] in Er; lia]. cbn [app wp].
        unfold len in C. split; [|rewrite app_length; cbn [length]; lia]. split; [rewrite app_length; cbn [length]; lia|]. exists (ud ++ ur). split; [apply Forall2_app; assumption|].
        split; [exact El'|]. split; [rewrite S', !app_length; cbn [length]; lia|]. split; [exact D'|]. left. rewrite app_length. cbn [length]. lia.
    + cbn [wp]. unfold len in H. destruct L as [L|(Ir & -> & A & B)]; [lia|]. inversion F as [|? u ? us'' N F']; subst. inversion F'; subst. clear F F'.
      unfold usum in S. cbn [fold_right length] in S. destruct u as [k|l r]; [cbn [nrep] in N; destruct N as (_ & _ & N & _); congruence|]. exists Ir, l, r. split; [reflexivity|]. split; [exact N|]. split; [rewrite <- El; unfold uall; cbn [map concat]; rewrite app_nil_r; reflexivity|].
      split; [lia|]. auto.
  - split; [lia|]. exists us. repeat (split; [assumption || reflexivity || constructor|]). left. exact H2.
  - lia.
Qed.

(** ** labelled trees: what the finished array stands for *)
Inductive lt := LL (i : Z) (k : ikey) | LN (i : Z) (l r : lt).
Definition lidx (t : lt) : Z := match t with LL i _ => i | LN i _ _ => i end.
Fixpoint lkey (t : lt) : ikey := match t with LL _ k => k | LN _ l r => IK (k_cl (lkey l)) (k_lo (lkey l)) (k_hi (lkey r)) (k_cr (lkey r)) end.
Fixpoint lleaves (t : lt) : list ikey := match t with LL _ k => [k] | LN _ l r => lleaves l ++ lleaves r end.
Fixpoint lsize (t : lt) : nat := match t with LL _ _ => 1 | LN _ l r => S (lsize l + lsize r) end.
Definition lft (t : lt) : option Z := match t with LL _ _ => None | LN _ l _ => Some (lidx l) end.
Definition rgt (t : lt) : option Z := match t with LL _ _ => None | LN _ _ r => Some (lidx r) end.
Fixpoint irep (tree : list inode) (t : lt) : Prop :=
  (exists d, lget tree (lidx t) = Ret {| n_key := lkey t; n_left := lft t; n_right := rgt t; n_data := d |}) /\
  match t with LL _ _ => True | LN _ l r => irep tree l /\ irep tree r end.
Definition skel (n : inode) := (n_key n, n_left n, n_right n).
Lemma irep_here tree t : irep tree t -> exists d, lget tree (lidx t) = Ret {| n_key := lkey t; n_left := lft t; n_right := rgt t; n_data := d |}.
Proof. destruct t; cbn [irep]; tauto. Qed.
Lemma lget_skel tree tree' i n : map skel tree' = map skel tree -> lget tree i = Ret n -> exists n', lget tree' i = Ret n' /\ skel n' = skel n.
Proof.
  intros E H. assert (L : len tree' = len tree) by (apply (f_equal (@length _)) in E; rewrite !map_length in E; unfold len; lia).
  unfold lget, aget in *. rewrite L. set (j := if i <? 0 then i + len tree else i) in *. destruct ((j <? 0) || (len tree <=? j)); [discriminate|].
  assert (Q : option_map skel (nth_error tree' (Z.to_nat j)) = option_map skel (nth_error tree (Z.to_nat j))).
  { rewrite <- !nth_error_map, E. reflexivity. }
  destruct (nth_error tree (Z.to_nat j)) as [x|]; [|discriminate]. injection H as ->. destruct (nth_error tree' (Z.to_nat j)) as [y|]; [|discriminate]. injection Q as Q1 Q2 Q3.
  exists y. split; [reflexivity|]. unfold skel. congruence.
Qed.
Lemma irep_skel tree tree' t : map skel tree' = map skel tree -> irep tree t -> irep tree' t.
Proof.
  intros E. assert (Here : forall t, (exists d, lget tree (lidx t) = Ret {| n_key := lkey t; n_left := lft t; n_right := rgt t; n_data := d |}) ->
    exists d, lget tree' (lidx t) = Ret {| n_key := lkey t; n_left := lft t; n_right := rgt t; n_data := d |}).
  { intros u [d H]. destruct (lget_skel _ _ _ _ E H) as (n' & H' & S). exists (n_data n'). rewrite H'. destruct n' as [k l r dd]. unfold skel in S. cbn in *. injection S as -> -> ->. reflexivity. }
  induction t as [i k|i l IHl r IHr]; cbn [irep]; intros [H1 H2]; (split; [apply (Here _ H1)|]); [exact I|]. destruct H2; auto.
Qed.
(** a node of the pairing phase, once in the array *)
Lemma nrep_irep tree u : forall i n, lget tree i = Ret n -> nrep tree n u -> exists t, irep tree t /\ lidx t = i /\ lkey t = ukey u /\ lleaves t = uleaves u /\ lsize t = usize u.
Proof.
  induction u as [k|l IHl r IHr]; intros i n Hg N; cbn [nrep] in N.
  - destruct N as (E1 & E2 & E3 & E4). exists (LL i k). cbn. repeat split. exists None. rewrite Hg. destruct n; cbn in *; subst; reflexivity.
  - destruct N as (E1 & E2 & a & b & nl & nr & A & B & _ & _ & C & D & F & G). destruct (IHl _ _ C F) as (tl & T1 & T2 & T3 & T4 & T5). destruct (IHr _ _ D G) as (tr & U1 & U2 & U3 & U4 & U5).
    exists (LN i tl tr). cbn [irep lidx lkey lleaves lsize ukey uleaves usize lft rgt]. split; [|split; [reflexivity|split; [|split; [congruence|lia]]]].
    + split; [|auto]. exists None. rewrite Hg. destruct n; cbn in *; subst. rewrite T3, U3. reflexivity.
    + rewrite T3, U3. reflexivity.
Qed.

(** position of a Python index *)
Definition pos (N i : Z) : nat := Z.to_nat (if i <? 0 then i + N else i).
Definition dat (tree : list inode) (p : nat) : list nat := match nth_error tree p with Some n => match n_data n with Some l => l | None => [] end | None => [] end.

Fixpoint stops (N : Z) (I : ikey) (t : lt) (p : nat) : Prop :=
  if contains I (lkey t) then p = pos N (lidx t)
  else match t with LL _ _ => False | LN _ l r => (intersect I (lkey l) = true /\ stops N I l p) \/ (intersect I (lkey r) = true /\ stops N I r p) end.
Fixpoint vis (N : Z) (q : ikey) (t : lt) (p : nat) : Prop :=
  p = pos N (lidx t) \/
  match t with LL _ _ => False | LN _ l r => (intersect q (lkey l) = true /\ vis N q l p) \/ (intersect q (lkey r) = true /\ vis N q r p) end.

Lemma lget_pos {V} (a : list V) i v : lget a i = Ret v -> nth_error a (pos (len a) i) = Some v /\ (pos (len a) i < length a)%nat.
Proof.
  unfold lget, aget, pos. set (j := if i <? 0 then i + len a else i). destruct (Z.ltb_spec j 0), (Z.leb_spec (len a) j); try discriminate. simpl. unfold len in *.
  destruct (nth_error a (Z.to_nat j)) eqn:E; [|discriminate]. intros [=->]. split; [reflexivity|lia].
Qed.
Lemma lget_aset {V} (a : list V) i v w : lget a i = Ret v -> aset a i w = Ret (upd a (pos (len a) i) w).
Proof.
  unfold lget, aget, aset, pos. set (j := if i <? 0 then i + len a else i). destruct (Z.ltb_spec j 0), (Z.leb_spec (len a) j); try discriminate. reflexivity.
Qed.
Lemma iterate_ok tree calls I t : irep tree t -> iterate tree calls I (lidx t) =
  Ret (match t with LL _ _ => calls | LN _ l r => (if intersect I (lkey l) then [lidx l] else []) ++ (if intersect I (lkey r) then [lidx r] else []) ++ calls end).
Proof.
  intros R. destruct (irep_here _ _ R) as [d Hg]. unfold iterate. rewrite Hg. cbn [bind n_left n_right lft rgt]. destruct t as [i k|i l r]; cbn [lft rgt]; [reflexivity|].
  cbn [irep] in R. destruct R as (_ & Rl & Rr). destruct (irep_here _ _ Rl) as [dl Hl]. destruct (irep_here _ _ Rr) as [dr Hr]. rewrite Hr. cbn [bind]. rewrite Hl. cbn [bind n_key].
  destruct (intersect I (lkey r)), (intersect I (lkey l)); reflexivity.
Qed.

(** ** insertion of a segment *)
Definition ins_body (k : nat) (I : ikey) : (list Z * list inode) -> res (ctl (list Z * list inode) (list inode)) := fun '(calls, tree) =>
      match calls with
      | [] => Ret (Break tree)
      | idx :: calls =>
        node <- lget tree idx ;;
        if contains I (n_key node) then
          let d := match n_data node with None => [] | Some l => l end in
          tree <- aset tree idx {| n_key := n_key node; n_left := n_left node; n_right := n_right node; n_data := Some (d ++ [k]) |} ;;
          Ret (Next (calls, tree))
        else calls <- iterate tree calls I idx ;; Ret (Next (calls, tree))
      end.
Lemma dat_upd tree p n q : (p < length tree)%nat -> dat (upd tree p n) q = if (p =? q)%nat then match n_data n with Some l => l | None => [] end else dat tree q.
Proof. intros H. unfold dat. rewrite nth_error_upd. destruct (Nat.eqb_spec p q); [|reflexivity]. simpl. destruct (Nat.ltb_spec p (length tree)); [reflexivity|lia]. Qed.
Lemma skel_upd tree p n m : nth_error tree p = Some m -> skel n = skel m -> map skel (upd tree p n) = map skel tree.
Proof. revert p. induction tree as [|x tree IH]; intros [|p] E S; simpl in *; try discriminate; [injection E as ->; rewrite S; reflexivity|]. f_equal. apply IH; assumption. Qed.
Lemma insert_stop k I N t tree rest : irep tree t -> len tree = N -> contains I (lkey t) = true ->
  exists tree', runs (ins_body k I) 1 (lidx t :: rest, tree) (rest, tree') /\ map skel tree' = map skel tree /\
    forall p x, In x (dat tree' p) <-> In x (dat tree p) \/ (x = k /\ p = pos N (lidx t)).
Proof.
  intros R HN Ec. destruct (irep_here _ _ R) as [d Hg]. destruct (lget_pos _ _ _ Hg) as [Hn Hl]. rewrite HN in *. eexists. split; [|split].
  - apply runs_one. cbn [ins_body]. rewrite Hg. cbn [bind n_key]. rewrite Ec. rewrite (lget_aset _ _ _ _ Hg). reflexivity.
  - rewrite HN. apply (skel_upd _ _ _ _ Hn). reflexivity.
  - intros p x. rewrite HN, dat_upd by exact Hl. cbn [n_data]. destruct (Nat.eqb_spec (pos N (lidx t)) p) as [<-|Hp].
    + rewrite in_app_iff. unfold dat. rewrite Hn. cbn [n_data]. simpl. destruct d; intuition.
    + intuition congruence.
Qed.
Lemma insert_rec k I N t : forall tree rest, irep tree t -> len tree = N ->
  exists s tree', runs (ins_body k I) s (lidx t :: rest, tree) (rest, tree') /\ (s <= lsize t)%nat /\ map skel tree' = map skel tree /\
    forall p x, In x (dat tree' p) <-> In x (dat tree p) \/ (x = k /\ stops N I t p).
Proof.
  induction t as [i kk|i l IHl r IHr]; intros tree rest R HN.
  - destruct (contains I (lkey (LL i kk))) eqn:Ec.
    + destruct (insert_stop k I N _ tree rest R HN Ec) as (tree' & A & B & C). exists 1%nat, tree'. cbn [stops lsize]. rewrite Ec. auto.
    + exists 1%nat, tree. split; [|split; [simpl; lia|split; [reflexivity|]]].
      * apply runs_one. cbn [ins_body]. destruct (irep_here _ _ R) as [d Hg]. rewrite Hg. cbn [bind n_key]. rewrite Ec, (iterate_ok _ _ _ _ R). reflexivity.
      * intros p x. cbn [stops]. rewrite Ec. tauto.
  - destruct (contains I (lkey (LN i l r))) eqn:Ec.
    + destruct (insert_stop k I N _ tree rest R HN Ec) as (tree' & A & B & C). exists 1%nat, tree'. cbn [stops lsize]. rewrite Ec. repeat (split; [assumption || lia|]). exact C.
    + assert (R1 : runs (ins_body k I) 1 (lidx (LN i l r) :: rest, tree) ((if intersect I (lkey l) then [lidx l] else []) ++ (if intersect I (lkey r) then [lidx r] else []) ++ rest, tree)).
      { apply runs_one. cbn [ins_body]. destruct (irep_here _ _ R) as [d Hg]. rewrite Hg. cbn [bind n_key]. rewrite Ec, (iterate_ok _ _ _ _ R). reflexivity. }
      cbn [irep] in R. destruct R as (_ & Rl & Rr). cbn [stops lsize]. rewrite Ec.
      assert (HL : exists s tree', runs (ins_body k I) s ((if intersect I (lkey l) then [lidx l] else []) ++ (if intersect I (lkey r) then [lidx r] else []) ++ rest, tree)
           ((if intersect I (lkey r) then [lidx r] else []) ++ rest, tree') /\ (s <= lsize l)%nat /\ map skel tree' = map skel tree /\
         forall p x, In x (dat tree' p) <-> In x (dat tree p) \/ (x = k /\ intersect I (lkey l) = true /\ stops N I l p)).
      { destruct (intersect I (lkey l)).
        - destruct (IHl tree ((if intersect I (lkey r) then [lidx r] else []) ++ rest) Rl HN) as (s & tree' & A & B & C & D). exists s, tree'. repeat (split; [assumption|]).
          intros p x. rewrite D. tauto.
        - exists 0%nat, tree. split; [intros f; reflexivity|]. split; [lia|]. split; [reflexivity|]. intros p x. intuition discriminate. }
      destruct HL as (s1 & t1 & A1 & B1 & C1 & D1).
      assert (L1 : len t1 = N) by (apply (f_equal (@length _)) in C1; rewrite !map_length in C1; unfold len in *; lia).
      assert (HR : exists s tree', runs (ins_body k I) s ((if intersect I (lkey r) then [lidx r] else []) ++ rest, t1)
           (rest, tree') /\ (s <= lsize r)%nat /\ map skel tree' = map skel t1 /\
         forall p x, In x (dat tree' p) <-> In x (dat t1 p) \/ (x = k /\ intersect I (lkey r) = true /\ stops N I r p)).
      { destruct (intersect I (lkey r)).
        - destruct (IHr t1 rest (irep_skel _ _ _ C1 Rr) L1) as (s & tree' & A & B & C & D). exists s, tree'. repeat (split; [assumption|]).
          intros p x. rewrite D. tauto.
        - exists 0%nat, t1. split; [intros f; reflexivity|]. split; [lia|]. split; [reflexivity|]. intros p x. intuition discriminate. }
      destruct HR as (s2 & t2 & A2 & B2 & C2 & D2).
      exists (1 + (s1 + s2))%nat, t2. split; [eapply runs_trans; [exact R1|]; eapply runs_trans; [exact A1|exact A2]|]. split; [lia|]. split; [congruence|].
      intros p x. rewrite D2, D1. tauto.
Qed.
Lemma insert_seg_ok k seg tree t : irep tree t -> lidx t = -1 -> (lsize t <= length tree)%nat ->
  exists tree', insert_seg k seg tree = Ret tree' /\ map skel tree' = map skel tree /\
    forall p x, In x (dat tree' p) <-> In x (dat tree p) \/ (x = k /\ stops (len tree) (IK true (fst seg) (snd seg) true) t p).
Proof.
  intros R E L. destruct (insert_rec k (IK true (fst seg) (snd seg) true) (len tree) t tree [] R eq_refl) as (s & tree' & A & B & C & D).
  exists tree'. split; [|split; assumption]. unfold insert_seg. fold (ins_body k (IK true (fst seg) (snd seg) true)). rewrite E in A.
  replace (S (length tree)) with (s + S (length tree - s))%nat by lia. rewrite A. apply while_break. reflexivity.
Qed.

Lemma insert_all segs t : forall k0 tree, irep tree t -> lidx t = -1 -> (lsize t <= length tree)%nat ->
  exists tree', forM segs (fun seg '(k, tree) => tree <- insert_seg k seg tree ;; Ret (S k, tree)) (k0, tree) = Ret ((k0 + length segs)%nat, tree') /\ map skel tree' = map skel tree /\
    forall p x, In x (dat tree' p) <-> In x (dat tree p) \/ exists i seg, nth_error segs i = Some seg /\ x = (k0 + i)%nat /\ stops (len tree) (IK true (fst seg) (snd seg) true) t p.
Proof.
  induction segs as [|seg segs IH]; intros k0 tree R E L.
  - exists tree. split; [cbn; rewrite Nat.add_0_r; reflexivity|]. split; [reflexivity|]. intros p x. split; [auto|]. intros [|([|i] & sg & Hn & _)]; [assumption|discriminate|discriminate].
  - destruct (insert_seg_ok k0 seg tree t R E L) as (t1 & A & C & D). cbn [forM]. rewrite A. cbn [bind].
    assert (L1 : length t1 = length tree) by (apply (f_equal (@length _)) in C; rewrite !map_length in C; exact C).
    destruct (IH (S k0) t1 (irep_skel _ _ _ C R) E ltac:(lia)) as (t2 & A2 & C2 & D2). exists t2. split; [rewrite A2; do 2 f_equal; cbn [length]; lia|]. split; [congruence|].
    intros p x. rewrite D2, D. unfold len. rewrite L1. split.
    + intros [[H|[-> H]]|(i & sg & Hn & -> & H)]; [auto|right; exists 0%nat, seg; cbn; rewrite Nat.add_0_r; auto|right; exists (S i), sg; cbn; split; [exact Hn|split; [lia|exact H]]].
    + intros [H|([|i] & sg & Hn & -> & H)]; [auto|cbn in Hn; injection Hn as ->; left; right; split; [lia|exact H]|cbn in Hn; right; exists i, sg; split; [exact Hn|split; [lia|exact H]]].
Qed.

(** ** query *)
Definition q_body (tree : list inode) (qn : ikey) : (list Z * list nat) -> res (ctl (list Z * list nat) (list nat)) := fun '(calls, intervals) =>
      match calls with
      | [] => Ret (Break intervals)
      | idx :: calls =>
        node <- lget tree idx ;;
        let intervals := match n_data node with Some l => intervals ++ l | None => intervals end in
        calls <- iterate tree calls qn idx ;;
        Ret (Next (calls, intervals))
      end.
Lemma query_rec tree qn t : forall rest acc, irep tree t ->
  exists s acc', runs (q_body tree qn) s (lidx t :: rest, acc) (rest, acc') /\ (s <= lsize t)%nat /\
    forall x, In x acc' <-> In x acc \/ exists p, vis (len tree) qn t p /\ In x (dat tree p).
Proof.
  induction t as [i kk|i l IHl r IHr]; intros rest acc R.
  - destruct (irep_here _ _ R) as [d Hg]. destruct (lget_pos _ _ _ Hg) as [Hn Hl]. eexists 1%nat, _. split; [apply runs_one; cbn [q_body]; rewrite Hg; cbn [bind n_data]; rewrite (iterate_ok _ _ _ _ R); reflexivity|].
    split; [simpl; lia|]. intros x. cbn [vis]. assert (Hd : dat tree (pos (len tree) (lidx (LL i kk))) = match d with Some l => l | None => [] end) by (unfold dat; rewrite Hn; reflexivity).
    split.
    + intros H. destruct d as [dl|]; [|auto]. apply in_app_iff in H. destruct H as [H|H]; [auto|]. right. eexists. split; [left; reflexivity|]. rewrite Hd. exact H.
    + intros [H|(p & [->|[]] & H)]; [destruct d; [apply in_or_app; auto|exact H]|]. rewrite Hd in H. destruct d; [apply in_or_app; auto|destruct H].
  - destruct (irep_here _ _ R) as [d Hg]. destruct (lget_pos _ _ _ Hg) as [Hn Hl]. 
    assert (Hd : dat tree (pos (len tree) (lidx (LN i l r))) = match d with Some l => l | None => [] end) by (unfold dat; rewrite Hn; reflexivity).
    set (acc1 := match d with Some l => acc ++ l | None => acc end).
    assert (R1 : runs (q_body tree qn) 1 (lidx (LN i l r) :: rest, acc) ((if intersect qn (lkey l) then [lidx l] else []) ++ (if intersect qn (lkey r) then [lidx r] else []) ++ rest, acc1)).
    { apply runs_one. cbn [q_body]. rewrite Hg. cbn [bind n_data]. rewrite (iterate_ok _ _ _ _ R). reflexivity. }
    assert (H1 : forall x, In x acc1 <-> In x acc \/ In x (dat tree (pos (len tree) i))).
    { intros x. cbn [lidx] in Hd. rewrite Hd. unfold acc1. destruct d; [rewrite in_app_iff; tauto|simpl; tauto]. }
    cbn [irep] in R. destruct R as (_ & Rl & Rr). cbn [vis lsize lidx].
    assert (HL : exists s acc2, runs (q_body tree qn) s ((if intersect qn (lkey l) then [lidx l] else []) ++ (if intersect qn (lkey r) then [lidx r] else []) ++ rest, acc1)
           ((if intersect qn (lkey r) then [lidx r] else []) ++ rest, acc2) /\ (s <= lsize l)%nat /\
         forall x, In x acc2 <-> In x acc1 \/ exists p, (intersect qn (lkey l) = true /\ vis (len tree) qn l p) /\ In x (dat tree p)).
    { destruct (intersect qn (lkey l)).
      - destruct (IHl ((if intersect qn (lkey r) then [lidx r] else []) ++ rest) acc1 Rl) as (s & acc2 & A & B & D). exists s, acc2. repeat (split; [assumption|]).
        intros x. rewrite D. firstorder.
      - exists 0%nat, acc1. split; [intros f; reflexivity|]. split; [lia|]. intros x. split; [auto|]. intros [H|(p & [H _] & _)]; [exact H|discriminate]. }
    destruct HL as (s1 & acc2 & A1 & B1 & D1).
    assert (HR : exists s acc3, runs (q_body tree qn) s ((if intersect qn (lkey r) then [lidx r] else []) ++ rest, acc2)
           (rest, acc3) /\ (s <= lsize r)%nat /\
         forall x, In x acc3 <-> In x acc2 \/ exists p, (intersect qn (lkey r) = true /\ vis (len tree) qn r p) /\ In x (dat tree p)).
    { destruct (intersect qn (lkey r)).
      - destruct (IHr rest acc2 Rr) as (s & acc3 & A & B & D). exists s, acc3. repeat (split; [assumption|]).
        intros x. rewrite D. firstorder.
      - exists 0%nat, acc2. split; [intros f; reflexivity|]. split; [lia|]. intros x. split; [auto|]. intros [H|(p & [H _] & _)]; [exact H|discriminate]. }
    destruct HR as (s2 & acc3 & A2 & B2 & D2).
    exists (1 + (s1 + s2))%nat, acc3. split; [eapply runs_trans; [exact R1|]; eapply runs_trans; [exact A1|exact A2]|]. split; [lia|].
    intros x. rewrite D2, D1, H1. split.
    + intros [[[H|H]|(p & H & H')]|(p & H & H')]; [auto|right; exists (pos (len tree) i); auto|right; exists p; auto|right; exists p; auto].
    + intros [H|(p & [->|[H|H]] & H')]; [auto|auto|left; right; exists p; auto|right; exists p; auto].
Qed.
Lemma query_ok tree t x : irep tree t -> lidx t = -1 -> (lsize t <= length tree)%nat ->
  exists acc, ist_query tree x = Ret acc /\ forall k, In k acc <-> exists p, vis (len tree) (cls x) t p /\ In k (dat tree p).
Proof.
  intros R E L. destruct (query_rec tree (cls x) t [] [] R) as (s & acc & A & B & D). exists acc. split.
  - unfold ist_query. fold (cls x). fold (q_body tree (cls x)). rewrite E in A. replace (S (length tree)) with (s + S (length tree - s))%nat by lia. rewrite A. apply while_break. reflexivity.
  - intros k. rewrite D. simpl. tauto.
Qed.

(** ** the geometry *)
Lemma contains_closed a b k : contains (IK true a b true) k = true <-> a <= k_lo k /\ k_hi k <= b.
Proof.
  destruct k as [cl lo hi cr]. unfold contains. cbn.
  destruct (Z.ltb_spec a lo), (Z.ltb_spec hi b), (Z.eqb_spec a lo), (Z.eqb_spec b hi); cbn; split; intros; try lia; try reflexivity; try discriminate.
Qed.
Lemma intersect_closed a b k : a <= b -> (intersect (IK true a b true) k = true -> k_lo k <= b /\ a <= k_hi k) /\
  (k_lo k <= b -> a <= k_hi k -> (k_lo k < b \/ k_cl k = true) -> intersect (IK true a b true) k = true).
Proof.
  intros Hab. destruct k as [cl lo hi cr]. unfold intersect. cbn. split.
  - destruct (Z.ltb_spec b lo), (Z.ltb_spec hi a); cbn; intros; try discriminate; lia.
  - intros H1 H2 H3. destruct (Z.ltb_spec b lo); [lia|]. destruct (Z.ltb_spec hi a); [lia|]. cbn. destruct (Z.eqb_spec b lo); [|reflexivity]. destruct H3 as [| ->]; [lia|]. cbn. reflexivity.
Qed.
Lemma lkey_ends t : exists x y xs ys, lleaves t = x :: xs /\ lleaves t = ys ++ [y] /\ k_cl (lkey t) = k_cl x /\ k_lo (lkey t) = k_lo x /\ k_hi (lkey t) = k_hi y /\ k_cr (lkey t) = k_cr y.
Proof.
  induction t as [i k|i l (x1 & y1 & xs1 & ys1 & A1 & B1 & C1 & D1 & E1 & F1) r (x2 & y2 & xs2 & ys2 & A2 & B2 & C2 & D2 & E2 & F2)].
  - exists k, k, [], []. repeat split.
  - exists x1, y2, (xs1 ++ lleaves r), (lleaves l ++ ys2). cbn [lleaves lkey k_cl k_lo k_hi k_cr]. split; [rewrite A1; reflexivity|]. split; [rewrite B2, app_assoc; reflexivity|]. auto.
Qed.

(** soundness *)
Lemma vis_key tree x t p : irep tree t -> vis (len tree) (cls x) t p -> p = pos (len tree) (lidx t) \/ exists n, nth_error tree p = Some n /\ k_lo (n_key n) <= x <= k_hi (n_key n).
Proof.
  induction t as [i k|i l IHl r IHr]; intros R; cbn [vis]; intros [H|H]; auto; [destruct H|]. cbn [irep] in R. destruct R as (_ & Rl & Rr).
  destruct H as [[H1 H2]|[H1 H2]].
  - apply (proj1 (intersect_closed x x (lkey l) ltac:(lia))) in H1. destruct (IHl Rl H2) as [->|H]; [|auto]. right. destruct (irep_here _ _ Rl) as [d Hg]. destruct (lget_pos _ _ _ Hg) as [Hn _].
    eexists. split; [exact Hn|]. cbn. lia.
  - apply (proj1 (intersect_closed x x (lkey r) ltac:(lia))) in H1. destruct (IHr Rr H2) as [->|H]; [|auto]. right. destruct (irep_here _ _ Rr) as [d Hg]. destruct (lget_pos _ _ _ Hg) as [Hn _].
    eexists. split; [exact Hn|]. cbn. lia.
Qed.
Lemma stops_key tree I t p : irep tree t -> stops (len tree) I t p -> exists n, nth_error tree p = Some n /\ contains I (n_key n) = true.
Proof.
  induction t as [i k|i l IHl r IHr]; intros R; cbn [stops].
  - destruct (contains I (lkey (LL i k))) eqn:E; [|intros []]. intros ->. destruct (irep_here _ _ R) as [d Hg]. destruct (lget_pos _ _ _ Hg) as [Hn _]. eexists. split; [exact Hn|exact E].
  - destruct (contains I (lkey (LN i l r))) eqn:E.
    + intros ->. destruct (irep_here _ _ R) as [d Hg]. destruct (lget_pos _ _ _ Hg) as [Hn _]. eexists. split; [exact Hn|exact E].
    + cbn [irep] in R. destruct R as (_ & Rl & Rr). intros [[_ H]|[_ H]]; auto.
Qed.
(** completeness *)
Lemma common N a b x t : a <= x <= b -> forall pre k post, lleaves t = pre ++ k :: post -> (forall j, In j pre -> k_lo j < x) -> (forall j, In j post -> x <= k_hi j) ->
  x <= k_hi k -> (k_lo k < x \/ (k_lo k = x /\ k_cl k = true)) -> a <= k_lo k -> k_hi k <= b ->
  exists p, stops N (IK true a b true) t p /\ vis N (cls x) t p.
Proof.
  intros Hx. 
  assert (Cross : forall t pre k post, lleaves t = pre ++ k :: post -> (forall j, In j pre -> k_lo j < x) -> (forall j, In j post -> x <= k_hi j) ->
    x <= k_hi k -> (k_lo k < x \/ (k_lo k = x /\ k_cl k = true)) -> intersect (IK true a b true) (lkey t) = true /\ intersect (cls x) (lkey t) = true).
  { intros u pre k post El Hpre Hpost Hk1 Hk2. destruct (lkey_ends u) as (f & g & xs & ys & A & B & C & D & E & F).
    assert (Hlo : k_lo (lkey u) < x \/ (k_lo (lkey u) = x /\ k_cl (lkey u) = true)).
    { rewrite C, D. rewrite A in El. destruct pre as [|z pre]; simpl in El; injection El as -> _; [exact Hk2|left; apply Hpre; left; reflexivity]. }
    assert (Hhi : x <= k_hi (lkey u)).
    { rewrite E. rewrite B in El. destruct (exists_last (l := k :: post)) as (zs & z & Ez); [discriminate|]. rewrite Ez, app_assoc in El. apply app_inj_tail in El. destruct El as [_ ->].
      destruct zs as [|w zs]; simpl in Ez; injection Ez as -> Ez; [exact Hk1|]. apply Hpost. rewrite Ez. apply in_or_app. right. left. reflexivity. }
    split; apply intersect_closed; try lia; destruct Hlo as [|[]]; auto; lia. }
  induction t as [i kk|i l IHl r IHr]; intros pre k post El Hpre Hpost Hk1 Hk2 Ha Hb.
  - exists (pos N i). cbn [lleaves] in El. destruct pre as [|z pre]; [|destruct pre; discriminate]. injection El as <- <-. cbn [stops vis lkey lidx].
    rewrite (proj2 (contains_closed a b kk)) by lia. auto.
  - cbn [stops vis]. destruct (contains (IK true a b true) (lkey (LN i l r))); [eexists; split; [reflexivity|left; reflexivity]|].
    cbn [lleaves] in El. assert (Hs : (exists post', lleaves l = pre ++ k :: post' /\ post = post' ++ lleaves r) \/ (exists pre', pre = lleaves l ++ pre' /\ lleaves r = pre' ++ k :: post)).
    { clear - El. revert pre El. generalize (lleaves l) as L. induction L as [|z L IH]; intros pre El; simpl in El.
      - right. exists pre. auto.
      - destruct pre as [|w pre]; simpl in El; injection El as -> El; [left; exists L; auto|]. destruct (IH pre El) as [(p' & A & B)|(p' & A & B)]; [left|right]; exists p'; subst; rewrite ?A; auto. }
    destruct Hs as [(post' & A & ->)|(pre' & -> & A)].
    + assert (Hpost' : forall j, In j post' -> x <= k_hi j) by (intros j Hj; apply Hpost, in_or_app; auto).
      destruct (Cross l _ _ _ A Hpre Hpost' Hk1 Hk2) as [I1 I2]. destruct (IHl _ _ _ A Hpre Hpost' Hk1 Hk2 Ha Hb) as (p & P1 & P2). exists p. split; [left; auto|right; left; auto].
    + assert (Hpre' : forall j, In j pre' -> k_lo j < x) by (intros j Hj; apply Hpre, in_or_app; auto).
      destruct (Cross r _ _ _ A Hpre' Hpost Hk1 Hk2) as [I1 I2]. destruct (IHr _ _ _ A Hpre' Hpost Hk1 Hk2 Ha Hb) as (p & P1 & P2). exists p. split; [right; auto|right; right; auto].
Qed.

(** ** the elementary intervals computed by the code *)
Lemma elems_snoc es : forall prev a b, elems prev ((es ++ [a]) ++ [b]) = elems prev (es ++ [a]) ++ [opn a b; cls b].
Proof. induction es as [|e es IH]; intros prev a b; [reflexivity|]. cbn [app elems]. rewrite IH. reflexivity. Qed.

Lemma last_nth (l : list Z) d : last l d = nth (length l - 1) l d.
Proof.
  induction l as [|x l IH]; [reflexivity|]. destruct l as [|y l]; [reflexivity|]. change (last (x :: y :: l) d) with (last (y :: l) d). rewrite IH. cbn [length nth]. 
  replace (S (S (length l)) - 1)%nat with (S (S (length l) - 1)) by lia. reflexivity.
Qed.
Lemma elementary_ok one segs : segs <> [] -> let es := zsort (concat (map (fun s => [fst s; snd s]) segs)) in
  elementary one segs = Ret (map fresh (elem_all one es)).
Proof.
  intros Hne es. unfold elementary. fold es.
  assert (Hl : 2 <= len es).
  { unfold es, len. rewrite zsort_len. destruct segs as [|s segs]; [contradiction|]. cbn [map concat]. rewrite app_length. cbn [length]. lia. }
  clearbody es. destruct es as [|e0 es']; [unfold len in Hl; simpl in Hl; lia|]. set (es := e0 :: es') in *.
  rewrite (lget_ok Z 0) by lia. cbn [bind]. change (zn 0 es 0) with e0.
  assert (W : wp (forM (zrange 0 (len es - 1)) (fun i q => a <- lget es i ;; b <- lget es (i + 1) ;; Ret (q ++ [fresh (IK true a a true); fresh (IK false a b false)])) [fresh (IK false (e0 - one) e0 false)])
    (fun q => q ++ [fresh (cls (zn 0 es (len es - 1)))] = map fresh (elems (e0 - one) es))).
  { apply wp_for_range with (I := fun i q => q ++ [fresh (cls (zn 0 es i))] = map fresh (elems (e0 - one) (firstn (Z.to_nat i + 1) es))).
    - reflexivity.
    - intros i q Hi Hq. rewrite !(lget_ok Z 0) by lia. cbn [bind]. cbn [wp].
      assert (Es : firstn (Z.to_nat (i + 1) + 1) es = (firstn (Z.to_nat i) es ++ [zn 0 es i]) ++ [zn 0 es (i + 1)]).
      { unfold len in Hi. replace (Z.to_nat (i + 1) + 1)%nat with (S (Z.to_nat (i + 1))) by lia. rewrite (firstn_S_nth _ 0) by lia. f_equal.
        replace (Z.to_nat (i + 1)) with (S (Z.to_nat i)) by lia. rewrite (firstn_S_nth _ 0) by lia. reflexivity. }
      assert (Ei : firstn (Z.to_nat i + 1) es = firstn (Z.to_nat i) es ++ [zn 0 es i]).
      { unfold len in Hi. replace (Z.to_nat i + 1)%nat with (S (Z.to_nat i)) by lia. rewrite (firstn_S_nth _ 0) by lia. reflexivity. }
      rewrite Es, elems_snoc, map_app, <- Ei, <- Hq. cbn [map]. rewrite <- !app_assoc. reflexivity.
    - intros q Hq. replace (Z.max 0 (len es - 1)) with (len es - 1) in Hq by lia. rewrite (firstn_all2 es) in Hq by (unfold len in *; lia). exact Hq. }
  apply wp_ex in W. destruct W as (q & -> & Hq). cbn [bind]. rewrite (lget_ok Z 0) by lia. cbn [bind]. f_equal.
  unfold elem_all, es. fold es. rewrite map_app, <- Hq. cbn [map]. rewrite <- app_assoc. cbn [app].
  assert (E : last es e0 = zn 0 es (len es - 1)).
  { rewrite (last_default es e0 0) by discriminate. rewrite last_nth. unfold zn, len. f_equal. lia. }
  rewrite E. reflexivity.
Qed.

Theorem stabbing_ok one segs x : 0 < one -> segs <> [] -> exists ids, stabbing one segs x = Ret ids /\
  forall k, In k ids <-> exists s, nth_error segs k = Some s /\ in_segment s x.
Proof.
  intros Ho Hne. unfold stabbing, ist_build. set (ns := map norm_seg segs). assert (Hn : ns <> []) by (unfold ns; destruct segs; [contradiction|discriminate]).
  set (es := zsort (concat (map (fun s => [fst s; snd s]) ns))). rewrite (elementary_ok one ns Hn). fold es. cbn [bind].
  assert (Hes : (2 <= length es)%nat).
  { unfold es. rewrite zsort_len. destruct ns as [|s ns']; [contradiction|]. cbn [map concat]. rewrite app_length. cbn [length]. lia. }
  set (E := elem_all one es).
  assert (HE : (2 <= length (map fresh E))%nat).
  { rewrite map_length. unfold E, elem_all. destruct es as [|e es']; [simpl in Hes; lia|]. rewrite app_length. cbn [elems length]. lia. }
  assert (HF : Forall2 (nrep []) (map fresh E) (map UL E)).
  { clear. induction E as [|k E IH]; constructor; [repeat split|exact IH]. }
  assert (HS : usum (map UL E) = length (map fresh E)).
  { clear. induction E as [|k E IH]; [reflexivity|]. cbn [map usum fold_right usize length]. unfold usum in IH. rewrite IH. lia. }
  assert (HU : uall (map UL E) = E) by (clear; unfold uall; induction E as [|k E IH]; [reflexivity|]; cbn [map concat uleaves]; rewrite IH; reflexivity).
  pose proof (pair_up_ok _ _ HE HF HS) as W. apply wp_ex in W. destruct W as ([q tree] & -> & Ir & l & r & -> & N & El & Sz & HL & HR & D). rewrite HU in El.
  cbn [bind].
  set (root := {| n_key := n_key Ir; n_left := Some (-3); n_right := Some (-2); n_data := n_data Ir |}). set (tree1 := tree ++ [root]).
  assert (T : exists t, irep tree1 t /\ lidx t = -1 /\ lleaves t = E /\ lsize t = length tree1 /\ lkey t = ukey (UN l r)).
  { cbn [nrep] in N. destruct N as (K1 & K2 & i & j & nl & nr & A & B & Pi & Pj & C & F & Nl & Nr). rewrite HL in A. rewrite HR in B. injection A as <-. injection B as <-.
    assert (Hlen : len tree1 = len tree + 1) by (unfold tree1, len; rewrite app_length; cbn [length]; lia).
    assert (Cl : lget tree1 (-3) = Ret nl).
    { pose proof (lget_app _ [root] _ _ C Pi) as Q. fold tree1 in Q. unfold lget in *. destruct (Z.ltb_spec (len tree - 2) 0); [lia|]. change (-3 <? 0) with true. cbv iota.
      replace (-3 + len tree1) with (len tree - 2) by lia. exact Q. }
    assert (Cr : lget tree1 (-2) = Ret nr).
    { pose proof (lget_app _ [root] _ _ F Pj) as Q. fold tree1 in Q. unfold lget in *. destruct (Z.ltb_spec (len tree - 1) 0); [lia|]. change (-2 <? 0) with true. cbv iota.
      replace (-2 + len tree1) with (len tree - 1) by lia. exact Q. }
    destruct (nrep_irep tree1 l (-3) nl Cl (nrep_app _ _ _ _ Nl)) as (tl & A1 & A2 & A3 & A4 & A5). destruct (nrep_irep tree1 r (-2) nr Cr (nrep_app _ _ _ _ Nr)) as (tr & B1 & B2 & B3 & B4 & B5).
    exists (LN (-1) tl tr). cbn [irep lidx lleaves lsize lkey ukey lft rgt]. split; [split; [|auto]|split; [reflexivity|split; [rewrite A4, B4; exact El|split; [|rewrite A3, B3; reflexivity]]]].
    - exists None. unfold lget, aget. change (-1 <? 0) with true. cbv iota. rewrite Hlen. pose proof (len_nonneg _ tree). destruct (Z.ltb_spec (-1 + (len tree + 1)) 0); [lia|].
      destruct (Z.leb_spec (len tree + 1) (-1 + (len tree + 1))); [lia|]. cbn [orb]. unfold tree1. rewrite nth_error_app2 by (unfold len; lia).
      replace (Z.to_nat (-1 + (len tree + 1)) - length tree)%nat with 0%nat by (unfold len; lia). cbn [nth_error]. unfold root. rewrite K1, K2, A2, B2, A3, B3. reflexivity.
    - cbn [usize] in Sz. unfold tree1. rewrite app_length. cbn [length]. lia. }
  destruct T as (t & R & Et & Lv & Sz' & Kt).
  destruct (insert_all ns t 0%nat tree1 R Et ltac:(lia)) as (tree2 & -> & Sk & Dt). cbn [bind].
  assert (L2 : length tree2 = length tree1) by (apply (f_equal (@length _)) in Sk; rewrite !map_length in Sk; exact Sk).
  pose proof (irep_skel _ _ _ Sk R) as R2. destruct (query_ok tree2 t x R2 Et ltac:(lia)) as (acc & -> & Hacc). exists acc. split; [reflexivity|].
  assert (D1 : forall p, dat tree1 p = []).
  { intros p. unfold dat. destruct (nth_error tree1 p) as [n|] eqn:En; [|reflexivity]. apply nth_error_In in En. unfold tree1 in En. apply in_app_iff in En.
    rewrite Forall_forall in D. destruct En as [En|[<-|[]]]; [rewrite (D n En); reflexivity|]. unfold root. cbn [n_data]. rewrite (nrep_data _ _ _ N). reflexivity. }
  assert (Ll : len tree2 = len tree1) by (unfold len; lia).
  assert (Hseg : forall k, (exists s, nth_error segs k = Some s /\ in_segment s x) <-> (exists a b, nth_error ns k = Some (a, b) /\ a <= x <= b)).
  { intros k. unfold ns. rewrite nth_error_map. split.
    - intros (s & -> & H). exists (Z.min (fst s) (snd s)), (Z.max (fst s) (snd s)). split; [reflexivity|]. unfold in_segment in H. lia.
    - intros (a & b & H & Hx). destruct (nth_error segs k) as [s|]; [|discriminate]. injection H as <- <-. exists s. split; [reflexivity|]. unfold in_segment. lia. }
  assert (Hends : forall k a b, nth_error ns k = Some (a, b) -> In a es /\ In b es /\ a <= b).
  { intros k a b Hk. assert (Hi : In (a, b) ns) by (apply (nth_error_In _ _ Hk)). split; [|split].
    - unfold es. rewrite zsort_in. apply in_concat. exists [a; b]. split; [|left; reflexivity]. apply (in_map (fun s : Z * Z => [fst s; snd s])) in Hi. exact Hi.
    - unfold es. rewrite zsort_in. apply in_concat. exists [a; b]. split; [|right; left; reflexivity]. apply (in_map (fun s : Z * Z => [fst s; snd s])) in Hi. exact Hi.
    - unfold ns in Hi. apply in_map_iff in Hi. destruct Hi as (s & Es & _). unfold norm_seg in Es. injection Es as <- <-. lia. }
  intros k. rewrite Hseg, Hacc. split.
  - intros (p & Hv & Hd). rewrite Dt, D1 in Hd. destruct Hd as [[]|(i & [a b] & Hn' & -> & Hst)]. cbn [fst snd] in Hst. cbn [Nat.add]. exists a, b. split; [exact Hn'|].
    rewrite <- Ll in Hst. destruct (stops_key _ _ _ _ R2 Hst) as (n & En & Hc). apply contains_closed in Hc. destruct (Hends _ _ _ Hn') as (Ha & Hb & Hab).
    destruct (vis_key _ _ _ _ R2 Hv) as [->|(n' & En' & Hx)].
    + (* the root holds nothing *)
      exfalso. destruct (irep_here _ _ R2) as [d Hg]. destruct (lget_pos _ _ _ Hg) as [Hng _]. rewrite Hng in En. injection En as <-. cbn [n_key] in Hc.
      destruct (lkey_ends t) as (f & g & xs & ys & A & _ & _ & Dk & _). rewrite Lv in A. unfold E, elem_all in A. destruct es as [|e es'] eqn:Ees; [simpl in Hes; lia|]. cbn [elems app] in A. injection A as <- _.
      rewrite Dk in Hc. unfold opn in Hc. cbn [k_lo] in Hc. pose proof (zsort_sorted (concat (map (fun s => [fst s; snd s]) ns))) as Ss. fold es in Ss. rewrite Ees in Ss. destruct Ss as [Ss _].
      destruct Ha as [<-|Ha]; [lia|]. specialize (Ss a Ha). lia.
    + rewrite En in En'. injection En' as <-. lia.
  - intros (a & b & Hn' & Hx). destruct (Hends _ _ _ Hn') as (Ha & Hb & Hab).
    destruct (find_leaf_all one es x a b Ho (zsort_sorted _) Ha Hb Hx) as (pre & kk & post & Eq & H1 & H2 & G1 & G2 & G3). fold E in Eq. rewrite <- Lv in Eq.
    destruct (G3 a b Ha Hb Hx) as [G4 G5]. destruct (common (len tree2) a b x t Hx _ _ _ Eq H1 H2 G1 G2 G4 G5) as (p & P1 & P2). exists p. split; [exact P2|].
    rewrite Dt. right. exists k, (a, b). split; [exact Hn'|]. split; [reflexivity|]. rewrite <- Ll. exact P1.
Qed.
Lemma stabbing_empty one x : stabbing one [] x = Raise IndexError.
Proof. reflexivity. Qed.
