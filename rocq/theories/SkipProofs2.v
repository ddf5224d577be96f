(** Proofs about SkipList, continued: the heap, searching. *)
From Verif Require Import Base SkipModel SkipSpec SkipProofs.

Lemma nd_l {A} (l m : list A) : NoDup (l ++ m) -> NoDup l.
Proof. induction l as [|a l IH]; [constructor|]. cbn. intros H. inversion H; subst. constructor; [intros I; apply H2, in_app_iff; auto|auto]. Qed.
Lemma nd_r {A} (l m : list A) : NoDup (l ++ m) -> NoDup m.
Proof. induction l as [|a l IH]; [auto|]. cbn. intros H. inversion H; subst. auto. Qed.
Lemma nd_disj {A} (l m : list A) x : NoDup (l ++ m) -> In x l -> ~ In x m.
Proof. induction l as [|a l IH]; [intros _ []|]. cbn. intros H. inversion H; subst. intros [->|I]; [intros J; apply H2, in_app_iff; auto|auto]. Qed.

Lemma f2_len {A B} (R : A -> B -> Prop) l m : Forall2 R l m -> length l = length m.
Proof. induction 1; cbn; congruence. Qed.

Lemma f2_nth {A B} (R : A -> B -> Prop) l m : Forall2 R l m -> forall i a b, nth_error l i = Some a -> nth_error m i = Some b -> R a b.
Proof. induction 1 as [|x y l m H F IH]; intros [|i] a b; cbn; try discriminate; [intros [= ->] [= ->]; exact H|apply IH]. Qed.

Section Heap.
  Context {D : Type}.
  Notation heap := (list (snode D)).
  Implicit Type h : heap.
  Definition K h a : xkey := match nth_error h a with Some c => s_key c | None => PInf end.
  Definition N h a : option nat := match nth_error h a with Some c => s_next c | None => None end.
  Definition Dn h a : option nat := match nth_error h a with Some c => s_down c | None => None end.
  Definition DD h a : option D := match nth_error h a with Some c => s_data c | None => None end.
  Lemma deref_ok h a : (a < length h)%nat -> sderef h (Some a) = Ret (SN (K h a) (DD h a) (N h a) (Dn h a)).
  Proof. intros L. unfold sderef, K, N, Dn, DD. destruct (nth_error h a) as [[]|] eqn:E; [reflexivity|]. apply nth_error_None in E. lia. Qed.
  Lemma set_len h a q : length (ssetnext h a q) = length h.
  Proof. unfold ssetnext. destruct (nth_error h a); [apply length_upd|reflexivity]. Qed.
  Lemma set_get h a q x : nth_error (ssetnext h a q) x = match nth_error h x with Some c => Some (if (x =? a)%nat then SN (s_key c) (s_data c) q (s_down c) else c) | None => None end.
  Proof.
    unfold ssetnext. destruct (nth_error h a) as [c|] eqn:E.
    - assert (La : (a < length h)%nat) by (apply nth_error_Some; congruence). rewrite nth_error_upd. destruct (Nat.eqb_spec x a) as [->|Ne].
      + rewrite Nat.eqb_refl, E. destruct (Nat.ltb_spec a (length h)); [reflexivity|lia].
      + destruct (Nat.eqb_spec a x); [congruence|]. destruct (nth_error h x); reflexivity.
    - destruct (Nat.eqb_spec x a) as [->|Ne]; [rewrite E; reflexivity|]. destruct (nth_error h x); reflexivity.
  Qed.
  Lemma set_K h a q x : K (ssetnext h a q) x = K h x.
  Proof. unfold K. rewrite set_get. destruct (nth_error h x); [|reflexivity]. destruct (x =? a)%nat; reflexivity. Qed.
  Lemma set_Dn h a q x : Dn (ssetnext h a q) x = Dn h x.
  Proof. unfold Dn. rewrite set_get. destruct (nth_error h x); [|reflexivity]. destruct (x =? a)%nat; reflexivity. Qed.
  Lemma set_DD h a q x : DD (ssetnext h a q) x = DD h x.
  Proof. unfold DD. rewrite set_get. destruct (nth_error h x); [|reflexivity]. destruct (x =? a)%nat; reflexivity. Qed.
  Lemma set_N h a q x : (a < length h)%nat -> N (ssetnext h a q) x = if (x =? a)%nat then q else N h x.
  Proof. intros L. unfold N. rewrite set_get. destruct (Nat.eqb_spec x a) as [->|]; [|destruct (nth_error h x); reflexivity]. destruct (nth_error h a) eqn:E; [reflexivity|]. apply nth_error_None in E. lia. Qed.
  Lemma app_get h e x : (x < length h)%nat -> nth_error (h ++ e) x = nth_error h x.
  Proof. apply nth_error_app1. Qed.

  Record repH (h : heap) (Ls : list lvl) : Prop := {
    h_chain : Forall (fun L => chain (N h) (lh L) (lm L) (lt L)) Ls;
    h_keys : Forall (lvl_keys (K h)) Ls;
    h_link : linked (K h) (Dn h) Ls;
    h_nd : NoDup (flat_map addrs Ls);
    h_bd : forall a, In a (flat_map addrs Ls) -> (a < length h)%nat
  }.
  Definition topH (Ls : list lvl) : option nat := match Ls with [] => None | L :: _ => Some (lh L) end.
  Definition topT (Ls : list lvl) : option nat := match Ls with [] => None | L :: _ => Some (lt L) end.
  Definition bot (Ls : list lvl) : list nat := lm (last Ls (Lv 0 [] 0)).
  Definition items (h : heap) (Ls : list lvl) : list (Z * option D) := map (fun a => (kz (K h) a, DD h a)) (bot Ls).
  Record rep (st : skip D) (Ls : list lvl) : Prop := {
    p_h : repH (k_heap st) Ls;
    p_ne : Ls <> [];
    p_head : k_head st = topH Ls;
    p_tail : k_tail st = topT Ls;
    p_lev : k_levels st = len Ls;
    p_num : k_num st = len (items (k_heap st) Ls)
  }.

  Lemma repH_tail h L Ls : repH h (L :: Ls) -> repH h Ls.
  Proof.
    intros [A B C E F]. split; [inversion A; assumption|inversion B; assumption|apply C| |].
    - cbn [flat_map] in E. apply nd_r in E. exact E.
    - intros a Ha. apply F. cbn [flat_map]. apply in_app_iff. auto.
  Qed.
  Lemma in_addrs (L : lvl) a : In a (addrs L) <-> a = lh L \/ In a (lm L) \/ a = lt L.
  Proof. unfold addrs. cbn [In]. rewrite in_app_iff. cbn [In]. intuition congruence. Qed.

  Definition lok h (L : lvl) : Prop := chain (N h) (lh L) (lm L) (lt L) /\ lvl_keys (K h) L /\ NoDup (addrs L) /\ (forall a, In a (addrs L) -> (a < length h)%nat).
  Lemma repH_lok h Ls L : repH h Ls -> In L Ls -> lok h L.
  Proof.
    intros [A B _ E F] I. rewrite Forall_forall in A, B. split; [auto|]. split; [auto|]. apply in_split in I as (l1 & l2 & ->). rewrite flat_map_app in *. cbn [flat_map] in *. split; [apply nd_r, nd_l in E; exact E|].
    intros a Ha. apply F. rewrite !in_app_iff. auto.
  Qed.

  (** ** the search *)
  Section Search.
    Context (h : heap) (k : Z).
    Notation pre := (pre (K h) k). Notation post := (post (K h) k). Notation pred := (pred (K h) k). Notation nxt := (nxt (K h) k).
    Definition sbody (heap0 : heap) := (fun '(path, node) =>
      match node with
      | None => Ret (Break path)
      | Some a =>
        n <- sderef heap0 (Some a) ;; nx <- sderef heap0 (s_next n) ;;
        if xge (s_key nx) k then Ret (Next (path ++ [a], s_down n)) else Ret (Next (path, s_next n))
      end : res (ctl (list nat * option nat) (list nat))).

    Lemma lvl_split L : lvl_keys (K h) L -> lm L = pre (lm L) ++ post (lm L).
    Proof. intros (_ & _ & F & A). apply split_ok; assumption. Qed.
    Lemma lvl_parts L : lok h L -> chain (N h) (lh L) (pre (lm L)) (nxt L) /\ match post (lm L) with [] => nxt L = lt L | y :: p => nxt L = y /\ chain (N h) y p (lt L) end.
    Proof.
      intros R. assert (C := proj1 R). assert (S := lvl_split L (proj1 (proj2 R))). rewrite S in C. unfold SkipProofs.nxt. destruct (post (lm L)) as [|y p].
      - rewrite app_nil_r in C. cbn [hd]. auto.
      - apply chain_app in C. cbn [hd]. tauto.
    Qed.
    Lemma nxt_in L : In (nxt L) (lm L ++ [lt L]).
    Proof. unfold SkipProofs.nxt. destruct (post (lm L)) as [|y p] eqn:E; cbn [hd]; apply in_app_iff; [right; left; reflexivity|left]. apply (post_ge (K h) k). rewrite E. left. reflexivity. Qed.
    Lemma nxt_ge L : lvl_keys (K h) L -> xge (K h (nxt L)) k = true.
    Proof. intros (_ & E & _). unfold SkipProofs.nxt. destruct (post (lm L)) as [|y p] eqn:Ep; cbn [hd]; [rewrite E; reflexivity|]. apply (post_ge (K h) k (lm L)). rewrite Ep. left. reflexivity. Qed.
    Lemma pred_next L : lok h L -> N h (pred L) = Some (nxt L).
    Proof. intros R. apply chain_last. apply (lvl_parts L R). Qed.

    Lemma walk_level L f path : lok h L -> forall l2 l1 x, lh L :: pre (lm L) = l1 ++ x :: l2 ->
      while_loop (S (length l2) + f) (sbody h) (path, Some x) = while_loop f (sbody h) (path ++ [pred L], Dn h (pred L)).
    Proof.
      intros R. assert (BD : forall a, In a (addrs L) -> (a < length h)%nat) by (apply R).
      assert (KL := proj1 (proj2 R)).
      assert (IX : forall x l1 l2, lh L :: pre (lm L) = l1 ++ x :: l2 -> In x (addrs L)). { intros x l1 l2 E. apply in_addrs. assert (X : In x (lh L :: pre (lm L))) by (rewrite E; apply in_elt). destruct X as [X|X]; [auto|]. apply pre_lt in X. tauto. }
      induction l2 as [|y l2 IH]; intros l1 x E.
      - assert (Ex : x = pred L). { unfold SkipProofs.pred. rewrite <- last_cons with (a := 0%nat), E. rewrite last_last. reflexivity. } subst x.
        cbn [length Nat.add while_loop sbody]. rewrite deref_ok by (eapply BD, IX; exact E). cbn [bind s_next s_down]. rewrite (pred_next L R).
        rewrite deref_ok by (apply BD; unfold addrs; right; apply nxt_in). cbn [bind s_key]. rewrite (nxt_ge L KL). reflexivity.
      - assert (C : N h x = Some y). { destruct (lvl_parts L R) as (C & _). destruct l1 as [|z l1]; cbn [app] in E.
          - injection E as <- E. rewrite E in C. apply C.
          - injection E as <- E. rewrite E in C. apply chain_app in C as (_ & C). apply C. }
        change (S (length (y :: l2)) + f)%nat with (S (S (length l2) + f)). cbn [while_loop sbody].
        assert (Iy : In y (pre (lm L))). { destruct l1 as [|z l1]; cbn [app] in E; injection E as _ E; rewrite E; [left; reflexivity|]. apply in_app_iff. right. right. left. reflexivity. }
        assert (E2 : lh L :: pre (lm L) = (l1 ++ [x]) ++ y :: l2) by (rewrite <- app_assoc; exact E).
        rewrite deref_ok by (eapply BD, IX; exact E). cbn [bind s_next s_down]. rewrite C. rewrite deref_ok by (eapply BD, IX; exact E2). cbn [bind s_key]. destruct (pre_lt _ _ _ _ Iy) as (_ & ->). apply (IH (l1 ++ [x]) y E2).
    Qed.
    Lemma pred_down L L' : link (K h) (Dn h) L L' -> lvl_keys (K h) L -> exists x, Dn h (pred L) = Some x /\ exists l1 l2, lh L' :: pre (lm L') = l1 ++ x :: l2.
    Proof.
      intros (E1 & _ & ds & S & F2) KL. unfold SkipProofs.pred. destruct (last_in (lh L) (pre (lm L))) as [X|X].
      - rewrite <- X, E1. exists (lh L'). split; [reflexivity|]. exists [], (pre (lm L')). reflexivity.
      - set (m := last (pre (lm L)) (lh L)) in *. destruct (pre_lt _ _ _ _ X) as (I & G). apply In_nth_error in I as (i & Ei). destruct (nth_error ds i) as [d|] eqn:Ed.
        2: { exfalso. apply nth_error_None in Ed. assert (i < length (lm L))%nat by (apply nth_error_Some; congruence). apply f2_len in F2. lia. }
        assert (Q : Dn h m = Some d /\ K h d = K h m). { apply (f2_nth _ _ _ F2 i m d Ei Ed). }
        destruct Q as (Q1 & Q2). exists d. split; [exact Q1|]. assert (Id : In d (pre (lm L'))). { unfold SkipProofs.pre. apply filter_In. split; [apply (sub_in _ _ S); eapply nth_error_In; exact Ed|]. rewrite Q2, G. reflexivity. }
        apply in_split in Id as (a & b & ->). exists (lh L' :: a), b. reflexivity.
    Qed.

    Definition cost (Ls : list lvl) : nat := fold_right (fun L n => S (length (lm L)) + n)%nat 0%nat Ls.
    Lemma filter_le {A} (f : A -> bool) l : (length (filter f l) <= length l)%nat.
    Proof. induction l as [|a l IH]; cbn; [lia|]. destruct (f a); cbn; lia. Qed.
    Lemma fuel_more (f1 f2 : nat) st r : while_loop f1 (sbody h) st = Ret r -> (f1 <= f2)%nat -> while_loop f2 (sbody h) st = Ret r.
    Proof.
      revert f2 st. induction f1 as [|f1 IH]; intros f2 st; [discriminate|]. destruct f2 as [|f2]; [lia|]. intros E L. cbn [while_loop] in *. destruct (sbody h st) as [[st'|r']| |]; try discriminate; [|exact E]. apply IH; [exact E|lia].
    Qed.
    Lemma search_from Ls : (forall L, In L Ls -> lok h L) -> linked (K h) (Dn h) Ls -> forall fuel path x, (cost Ls < fuel)%nat ->
      match Ls with [] => x = None | L :: _ => exists y, x = Some y /\ exists l1 l2, lh L :: pre (lm L) = l1 ++ y :: l2 end ->
      while_loop fuel (sbody h) (path, x) = Ret (path ++ map pred Ls).
    Proof.
      induction Ls as [|L Ls IH]; intros LK LN fuel path x C X.
      - subst x. destruct fuel as [|f]; [cbn in C; lia|]. cbn. rewrite app_nil_r. reflexivity.
      - destruct X as (y & -> & l1 & l2 & E). assert (OK := LK L (or_introl eq_refl)). destruct LN as (LN1 & LN2).
        assert (Le : (S (length l2) <= S (length (lm L)))%nat). { assert (Q := f_equal (@length _) E). rewrite app_length in Q. cbn [length] in Q. assert (Q2 := filter_le (fun a => negb (xge (K h a) k)) (lm L)). unfold SkipProofs.pre in Q. lia. }
        cbn [cost fold_right] in C. fold (cost Ls) in C. eapply fuel_more with (f1 := (S (length l2) + (fuel - S (length (lm L))))%nat); [|lia].
        rewrite (walk_level L _ _ OK l2 l1 y E). cbn [map]. replace (path ++ pred L :: map pred Ls) with ((path ++ [pred L]) ++ map pred Ls) by (rewrite <- app_assoc; reflexivity).
        apply IH; [intros L' I; apply LK; right; exact I|exact LN2|lia|]. destruct Ls as [|L' Ls].
        + destruct LN1 as (G1 & _ & G2). unfold SkipProofs.pred. destruct (last_in (lh L) (pre (lm L))) as [Q|Q]; [rewrite <- Q; exact G1|]. rewrite Forall_forall in G2. apply G2. apply (pre_lt _ _ _ _ Q).
        + destruct (pred_down L L' LN1 (proj1 (proj2 OK))) as (z & Ez & l3 & l4 & E'). exists z. split; [exact Ez|]. exists l3, l4. exact E'.
    Qed.
  End Search.

  Lemma cost_bound h Ls : repH h Ls -> (cost Ls <= length h)%nat.
  Proof.
    intros R. assert (X : (length (flat_map addrs Ls) <= length (seq 0 (length h)))%nat). { apply NoDup_incl_length; [apply R|]. intros a Ha. apply in_seq. apply (h_bd _ _ R) in Ha. lia. }
    rewrite seq_length in X. assert (Y : (cost Ls <= length (flat_map addrs Ls))%nat); [|lia]. clear. induction Ls as [|L Ls IH]; [cbn; lia|]. cbn [cost fold_right flat_map]. fold (cost Ls). rewrite app_length. unfold addrs at 1. cbn [length]. rewrite app_length. cbn [length]. lia.
  Qed.
  Lemma path_ok st Ls k : rep st Ls -> skip_path st k = Ret (map (pred (K (k_heap st)) k) Ls).
  Proof.
    intros R. unfold skip_path. change (while_loop (S (length (k_heap st))) (sbody k (k_heap st)) ([], k_head st) = Ret (map (pred (K (k_heap st)) k) Ls)). rewrite (p_head _ _ R).
    change (map (pred (K (k_heap st)) k) Ls) with ([] ++ map (pred (K (k_heap st)) k) Ls). apply search_from.
    - intros L I. apply (repH_lok _ _ _ (p_h _ _ R) I).
    - apply (p_h _ _ R).
    - assert (X := cost_bound _ _ (p_h _ _ R)). lia.
    - destruct Ls as [|L Ls]; [exfalso; apply (p_ne _ _ R); reflexivity|]. exists (lh L). split; [reflexivity|]. exists [], (SkipProofs.pre (K (k_heap st)) k (lm L)). reflexivity.
  Qed.
  (** the last node of the path and the node after it *)
  Lemma tip_ok st Ls k : rep st Ls -> exists L Up, Ls = Up ++ [L] /\ lok (k_heap st) L /\ bot Ls = lm L /\
    lget (map (pred (K (k_heap st)) k) Ls) (len (map (pred (K (k_heap st)) k) Ls) - 1) = Ret (pred (K (k_heap st)) k L).
  Proof.
    intros R. destruct (exists_last (p_ne _ _ R)) as (Up & L & ->). exists L, Up. split; [reflexivity|]. split; [apply (repH_lok _ _ _ (p_h _ _ R)), in_elt|]. split; [unfold bot; rewrite last_last; reflexivity|].
    rewrite map_app. cbn [map]. unfold len. rewrite app_length. cbn [length]. rewrite (lget_ok _ 0%nat) by (unfold len; rewrite app_length; cbn; lia). f_equal. unfold zn. rewrite app_nth2 by lia. replace (_ - _)%nat with 0%nat by lia. reflexivity.
  Qed.
  Lemma next_ok h k L : lok h L -> (pred (K h) k L < length h)%nat /\ (nxt (K h) k L < length h)%nat /\ N h (pred (K h) k L) = Some (nxt (K h) k L).
  Proof.
    intros (C & KL & ND & BD). split; [|split; [apply BD; unfold addrs; right; apply nxt_in|apply pred_next; exact (conj C (conj KL (conj ND BD)))]].
    apply BD, in_addrs. destruct (last_in (lh L) (SkipProofs.pre (K h) k (lm L))) as [X|X]; [left; unfold pred; rewrite <- X; reflexivity|]. apply pre_lt in X. tauto.
  Qed.
  (** [nxt] carries the key iff the key is stored *)
  Lemma nxt_key h k L : lvl_keys (K h) L -> xeq (K h (nxt (K h) k L)) k = existsb (fun a => kz (K h) a =? k) (lm L).
  Proof.
    intros KL. assert (S := lvl_split h k L KL). destruct KL as (_ & Et & F & A). unfold nxt.
    assert (NP : existsb (fun a => kz (K h) a =? k) (SkipProofs.pre (K h) k (lm L)) = false).
    { apply not_true_iff_false. intros X. apply existsb_exists in X as (x & I & E). apply pre_lt in I as (I & G). rewrite Forall_forall in F. destruct (F x I) as (z & Ez). unfold kz in E. rewrite Ez in *. cbn in G. lia. }
    rewrite S at 2. rewrite existsb_app, NP. cbn [orb]. destruct (SkipProofs.post (K h) k (lm L)) as [|y p] eqn:Ep; cbn [hd existsb]; [rewrite Et; reflexivity|].
    assert (Iy : In y (SkipProofs.post (K h) k (lm L))) by (rewrite Ep; left; reflexivity). apply post_ge in Iy as (Iy & G). rewrite Forall_forall in F. destruct (F y Iy) as (z & Ez). unfold kz at 1. rewrite Ez in *. cbn [xeq xge] in *.
    destruct (Z.eqb_spec z k) as [->|Ne]; [reflexivity|]. symmetry. cbn [orb]. apply not_true_iff_false. intros X. apply existsb_exists in X as (x & I & E). rewrite S, map_app in A. assert (AP : ascending (map (kz (K h)) (y :: p))). { clear - A. revert A. generalize (map (kz (K h)) (y :: p)). induction (map (kz (K h)) (SkipProofs.pre (K h) k (lm L))) as [|a l IH]; intros m; [auto|]. cbn. intros (_ & X). auto. }
    cbn [map ascending] in AP. destruct AP as (AP & _). rewrite Forall_map, Forall_forall in AP. assert (Y := AP x I). unfold kz at 1 in Y. rewrite Ez in Y. lia.
  Qed.
  Lemma search_ok st Ls k : rep st Ls -> skip_search st k = Ret (existsb (fun e => fst e =? k) (items (k_heap st) Ls)).
  Proof.
    intros R. unfold skip_search. rewrite (path_ok st Ls k R). cbn [bind]. destruct (tip_ok st Ls k R) as (L & Up & E & OK & EB & ->). cbn [bind]. destruct (next_ok (k_heap st) k L OK) as (B1 & B2 & EN).
    rewrite deref_ok by exact B1. cbn [bind s_next]. rewrite EN, deref_ok by exact B2. cbn [bind s_key]. rewrite nxt_key by apply OK. unfold items. rewrite EB. f_equal. clear. induction (lm L) as [|a l IH]; [reflexivity|]. cbn [map existsb fst]. rewrite IH. reflexivity.
  Qed.
End Heap.
