(** Proofs about SkipList (C14). *)
From Verif Require Import Base SkipModel SkipSpec.

Lemma sub_refl {A} (l : list A) : sublist l l.
Proof. induction l; [constructor|apply sub_keep; assumption]. Qed.
Lemma sub_in {A} (l m : list A) : sublist l m -> forall x, In x l -> In x m.
Proof. induction 1 as [|y l m S IH|y l m S IH]; intros x; cbn; [tauto|intros X; auto|intros [->|X]; auto]. Qed.
Lemma sub_filter {A} (f : A -> bool) (l m : list A) : sublist l m -> sublist (filter f l) (filter f m).
Proof. induction 1 as [|y l m S IH|y l m S IH]; cbn; [constructor| |]; destruct (f y); auto using @sublist. Qed.
Lemma sub_app {A} (l m l' m' : list A) : sublist l m -> sublist l' m' -> sublist (l ++ l') (m ++ m').
Proof. induction 1 as [|y l m S IH|y l m S IH]; intros H; cbn; [exact H|apply sub_skip|apply sub_keep]; auto. Qed.
Lemma sub_cons_l {A} (x : A) l m : sublist (x :: l) m -> sublist l m.
Proof. remember (x :: l) as xl eqn:E. intros H. revert E. induction H as [|y k m S IH|y k m S IH]; intros E; [discriminate|apply sub_skip; auto|]. injection E as -> ->. apply sub_skip. exact S. Qed.
Lemma sub_tl {A} (x y : A) l m : sublist (x :: l) (y :: m) -> sublist l m.
Proof. intros H. inversion H as [|z k m' S E1 E2|z k m' S E1 E2]; subst; [eapply sub_cons_l; exact S|exact S]. Qed.
Lemma sub_drop {A} (y : A) l m : sublist l (y :: m) -> (forall x l', l = x :: l' -> x <> y) -> sublist l m.
Proof. intros H N. inversion H as [|z k m' S E1 E2|z k m' S E1 E2]; subst; [exact S|]. exfalso. apply (N y k eq_refl). reflexivity. Qed.

Lemma no_elem {A} (l : list A) : (forall x, ~ In x l) -> l = [].
Proof. destruct l as [|a l]; [reflexivity|]. intros H. exfalso. apply (H a). left. reflexivity. Qed.

(** ** chains of next *)
Section Chain.
  Fixpoint chain (nx : nat -> option nat) (a : nat) (l : list nat) (t : nat) : Prop :=
    match l with [] => nx a = Some t | b :: l => nx a = Some b /\ chain nx b l t end.
  Lemma chain_app nx a l b m t : chain nx a (l ++ b :: m) t <-> chain nx a l b /\ chain nx b m t.
  Proof. revert a. induction l as [|x l IH]; intros a; cbn [app chain]; [reflexivity|]. rewrite IH. tauto. Qed.
  Lemma chain_frame nx nx' a l t : (forall x, In x (a :: l) -> nx' x = nx x) -> chain nx a l t -> chain nx' a l t.
  Proof. revert a. induction l as [|x l IH]; intros a H; cbn [chain]; [rewrite H by (left; reflexivity); auto|]. intros (E & C). split; [rewrite H by (left; reflexivity); exact E|]. apply IH; [intros y Hy; apply H; right; exact Hy|exact C]. Qed.
  Lemma last_cons (a x : nat) l : last (x :: l) a = last l x.
  Proof. revert a x. induction l as [|y l IH]; intros a x; [reflexivity|]. change (last (x :: y :: l) a) with (last (y :: l) a). rewrite !IH. reflexivity. Qed.
  Lemma last_in (a : nat) l : In (last l a) (a :: l).
  Proof. revert a. induction l as [|x l IH]; intros a; [left; reflexivity|]. rewrite last_cons. right. apply IH. Qed.
  Lemma chain_last nx a l t : chain nx a l t -> nx (last l a) = Some t.
  Proof. revert a. induction l as [|x l IH]; intros a; cbn [chain]; [auto|]. intros (_ & C). rewrite last_cons. apply IH. exact C. Qed.
  Lemma chain_retarget nx nx' a l t t' : NoDup (a :: l) -> (forall x, In x (a :: l) -> x <> last l a -> nx' x = nx x) -> nx' (last l a) = Some t' -> chain nx a l t -> chain nx' a l t'.
  Proof.
    revert a. induction l as [|x l IH]; intros a N F E; cbn [chain]; [auto|]. rewrite last_cons in *. inversion N as [|? ? Na Nl]; subst. intros (Ex & C). split.
    - rewrite F; [exact Ex|left; reflexivity|]. intros X. apply Na. rewrite X. apply last_in.
    - apply IH; auto. intros y Hy. apply F. right. exact Hy.
  Qed.
End Chain.

(** ** levels *)
Record lvl := Lv { lh : nat; lm : list nat; lt : nat }.
Definition addrs (L : lvl) : list nat := lh L :: lm L ++ [lt L].
Definition kz (ky : nat -> xkey) (a : nat) : Z := match ky a with Fin z => z | _ => 0 end.
Definition lvl_keys (ky : nat -> xkey) (L : lvl) : Prop := ky (lh L) = NInf /\ ky (lt L) = PInf /\ Forall (fun m => exists z, ky m = Fin z) (lm L) /\ ascending (map (kz ky) (lm L)).
Definition link (ky : nat -> xkey) (dn : nat -> option nat) (L L' : lvl) : Prop :=
  dn (lh L) = Some (lh L') /\ dn (lt L) = Some (lt L') /\ exists ds, sublist ds (lm L') /\ Forall2 (fun m d => dn m = Some d /\ ky d = ky m) (lm L) ds.
Definition ground (dn : nat -> option nat) (L : lvl) : Prop := dn (lh L) = None /\ dn (lt L) = None /\ Forall (fun m => dn m = None) (lm L).
Fixpoint linked (ky : nat -> xkey) (dn : nat -> option nat) (Ls : list lvl) : Prop :=
  match Ls with [] => True | L :: r => match r with [] => ground dn L | L' :: _ => link ky dn L L' end /\ linked ky dn r end.
Fixpoint above (ky : nat -> xkey) (dn : nat -> option nat) (Up : list lvl) (L : lvl) : Prop :=
  match Up with [] => True | U :: r => link ky dn U (hd L r) /\ above ky dn r L end.
Lemma linked_app ky dn Up L Lo : linked ky dn (Up ++ L :: Lo) <-> above ky dn Up L /\ linked ky dn (L :: Lo).
Proof. induction Up as [|U r IH]; [cbn [app above]; tauto|]. cbn [app above]. change (linked ky dn (U :: r ++ L :: Lo)) with ((match r ++ L :: Lo with [] => ground dn U | L' :: _ => link ky dn U L' end) /\ linked ky dn (r ++ L :: Lo)). rewrite IH. destruct r; cbn [app hd]; tauto. Qed.

Section Split.
  Context (ky : nat -> xkey) (k : Z).
  Definition pre (l : list nat) : list nat := filter (fun a => negb (xge (ky a) k)) l.
  Definition post (l : list nat) : list nat := filter (fun a => xge (ky a) k) l.
  Definition pred (L : lvl) : nat := last (pre (lm L)) (lh L).
  Definition nxt (L : lvl) : nat := hd (lt L) (post (lm L)).
  Lemma split_ok l : Forall (fun m => exists z, ky m = Fin z) l -> ascending (map (kz ky) l) -> l = pre l ++ post l.
  Proof.
    unfold pre, post. induction l as [|a l IH]; intros F A; [reflexivity|]. inversion F as [|? ? (z & Ez) Fl]; subst. cbn [map ascending] in A. destruct A as (A1 & A2). cbn [filter]. rewrite Ez at 1 2. cbn [xge].
    destruct (Z.leb_spec k z) as [L|L]; cbn [negb app]; [|f_equal; apply IH; assumption].
    assert (X : filter (fun a => negb (xge (ky a) k)) l = []). { rewrite Forall_map, Forall_forall in A1. rewrite Forall_forall in Fl. apply no_elem. intros x Hx. apply filter_In in Hx as (Hx & E). destruct (Fl x Hx) as (y & Ey). assert (Y := A1 x Hx). unfold kz in Y. rewrite Ez, Ey in Y. rewrite Ey in E. cbn in E. destruct (Z.leb_spec k y); [discriminate|lia]. }
    rewrite X. cbn [app]. f_equal. rewrite IH at 1 by assumption. rewrite X. reflexivity.
  Qed.
  Lemma pre_lt l x : In x (pre l) -> In x l /\ xge (ky x) k = false.
  Proof. intros H. apply filter_In in H as (A & B). destruct (xge (ky x) k); [discriminate|auto]. Qed.
  Lemma post_ge l x : In x (post l) -> In x l /\ xge (ky x) k = true.
  Proof. intros H. apply filter_In in H as (A & B). auto. Qed.
End Split.
