(** Proofs: the four rotations on linked nodes. *)
From Verif Require Import Base TreeModel TreeProofs.

(** goals about distinct indices, from ND : forall x, (cnt x ... <= 1)%nat *)
Ltac dj_at ND x :=
  let Q := fresh "Q" in pose proof (ND x) as Q; rewrite ?cnt_plug in Q; cbn [idx cidx] in Q; repeat (first [rewrite cnt_app in Q|rewrite cnt_cons in Q|rewrite cnt_nil in Q]); rewrite ?Z.eqb_refl in Q;
  repeat match goal with H : In x _ |- _ => apply cnt_In in H; cbn [idx cidx] in H; repeat (first [rewrite cnt_app in H|rewrite cnt_cons in H|rewrite cnt_nil in H]); rewrite ?Z.eqb_refl in H end;
  repeat match goal with H : context [x =? ?y] |- _ => destruct (Z.eqb_spec x y); try subst x end; rewrite ?Z.eqb_refl in *; try lia.
Ltac dj ND :=
  match goal with
  | |- ?x <> ?y => let H := fresh in intros H; subst; first [solve [dj_at ND y]|solve [dj_at ND x]]
  | |- ~ In ?x _ => let H := fresh in intros H; solve [dj_at ND x]
  | H : In ?x _ |- False => solve [dj_at ND x]
  end.

Section Rot.
  Context {D : Type}.
  Notation info := (info D). Notation node := (node D). Notation mem := (mem D). Notation bt := (bt D). Notation ctx := (ctx D).

  (** [m'] agrees with [m] except at the indices listed *)
  Definition frame (m m' : mem) (l : list Z) : Prop := len m' = len m /\ forall i, ~ In i l -> cell m' i = cell m i.
  Lemma frame_refl m l : frame m m l.
  Proof. split; auto. Qed.
  Lemma frame_trans m1 m2 m3 a b : frame m1 m2 a -> frame m2 m3 b -> frame m1 m3 (a ++ b).
  Proof. intros [A1 A2] [B1 B2]. split; [congruence|]. intros i H. rewrite B2, A2; [reflexivity|..]; intros X; apply H, in_or_app; auto. Qed.
  Lemma frame_incl m m' a b : frame m m' a -> incl a b -> frame m m' b.
  Proof. intros [A1 A2] H. split; [exact A1|]. intros i Hi. apply A2. intros X. apply Hi, H, X. Qed.
  Lemma frame_rep m m' l T p : frame m m' l -> (forall i, In i (idx T) -> ~ In i l) -> rep m T p -> rep m' T p.
  Proof. intros [_ F] H. apply rep_ext. intros i Hi. apply F, H, Hi. Qed.
  Lemma frame_crep m m' l c h : frame m m' l -> (forall i, In i (cidx c) -> ~ In i l) -> crep m c h -> crep m' c h.
  Proof. intros [_ F] H. apply crep_ext. intros i Hi. apply F, H, Hi. Qed.
  Lemma frame_cell m m' l i n : frame m m' l -> ~ In i l -> cell m i = Some n -> cell m' i = Some n.
  Proof. intros [_ F] H E. rewrite F; assumption. Qed.
  Lemma upd_frame m i v : inb m i -> frame m (zupd m i v) [i].
  Proof. intros H. split; [apply len_zupd|]. intros k Hk. rewrite cell_zupd by exact H. destruct (Z.eqb_spec k i) as [->|]; [exfalso; apply Hk; left; reflexivity|reflexivity]. Qed.
  Lemma tmod_step m i f n : cell m i = Some n -> exists m', tmod m (Some i) f = Ret m' /\ cell m' i = Some (f n) /\ frame m m' [i].
  Proof.
    intros H. exists (zupd m i (Some (f n))). split; [apply tmod_ok; exact H|]. assert (Hi := cell_inb _ _ _ H). split; [rewrite cell_zupd, Z.eqb_refl by exact Hi; reflexivity|apply upd_frame; exact Hi].
  Qed.
  (** the parent link of an optional child *)
  Lemma setpar_ok m T p q : rep m T p -> NoDup (idx T) ->
    exists m', (match root T with Some _ => tmod m (root T) (set_parent q) | None => Ret m end) = Ret m' /\ rep m' T q /\ frame m m' (idx T).
  Proof.
    destruct T as [|l i x r]; cbn [root rep idx]; intros H ND; [exists m; split; [reflexivity|]; split; [exact I|apply frame_refl]|].
    destruct H as (A & B & C). rewrite nodup_cnt in ND. destruct (tmod_step m i (set_parent q) _ A) as (m' & E & A' & F). exists m'. split; [exact E|]. split.
    - split; [exact A'|]. split; (eapply frame_rep; [exact F| |eassumption]); intros k Hk [<-|[]]; dj ND.
    - eapply frame_incl; [exact F|]. intros k [<-|[]]. apply in_or_app. right. left. reflexivity.
  Qed.
  (** the parent's link to a subtree *)
  Lemma relink_ok m c j k : crep m c (Some j) -> NoDup (cidx c) -> ~ In j (cidx c) ->
    exists m', (match cpar c with Some _ => relink m (cpar c) (Some j) k | None => Ret m end) = Ret m' /\ crep m' c k /\ frame m m' (cidx c).
  Proof.
    destruct c as [|c i x r|c l i x]; cbn [cpar crep cidx]; intros H ND NJ; [exists m; split; [reflexivity|]; split; [exact I|apply frame_refl]|..].
    - destruct H as (A & B & C). rewrite nodup_cnt in ND. unfold relink. rewrite (tget_ok _ _ _ A). cbn [bind n_left oeqb]. rewrite Z.eqb_refl.
      destruct (tmod_step m i (set_left k) _ A) as (m' & E & A' & F). exists m'. split; [exact E|]. split.
      + split; [exact A'|]. split; [eapply frame_rep; [exact F| |exact B]|eapply frame_crep; [exact F| |exact C]]; intros y Hy [<-|[]]; dj ND.
      + eapply frame_incl; [exact F|]. intros y [<-|[]]. left. reflexivity.
    - destruct H as (A & B & C). unfold relink. rewrite (tget_ok _ _ _ A). cbn [bind n_left oeqb].
      assert (X : match root l with Some y => y =? j | None => false end = false).
      { destruct (root l) as [y|] eqn:Ey; [|reflexivity]. apply Z.eqb_neq. intros ->. apply root_In in Ey. apply NJ, in_or_app. left. exact Ey. }
      assert (X' : oeqb (root l) (Some j) = false) by (destruct (root l); [exact X|reflexivity]). rewrite X'. rewrite nodup_cnt in ND.
      destruct (tmod_step m i (set_right k) _ A) as (m' & E & A' & F). exists m'. split; [exact E|]. split.
      + split; [exact A'|]. split; [eapply frame_rep; [exact F| |exact B]|eapply frame_crep; [exact F| |exact C]]; intros y Hy [<-|[]]; dj ND.
      + eapply frame_incl; [exact F|]. intros y [<-|[]]. apply in_or_app. right. left. reflexivity.
  Qed.
  Lemma nodup_sub (c : ctx) (T : bt) : NoDup (idx (plug c T)) -> NoDup (cidx c) /\ NoDup (idx T).
  Proof. rewrite !nodup_cnt. intros H. split; intros x; specialize (H x); rewrite cnt_plug in H; lia. Qed.
  Lemma nodup_N (l : bt) i x (r : bt) : NoDup (idx (N l i x r)) -> NoDup (idx l) /\ NoDup (idx r).
  Proof. rewrite !nodup_cnt. intros H. split; intros y; specialize (H y); cnts; lia. Qed.

  Lemma perm_cnt (a b : list Z) : (forall x, cnt x a = cnt x b) -> NoDup a -> NoDup b.
  Proof. rewrite !nodup_cnt. intros H N x. rewrite <- H. apply N. Qed.

End Rot.

(** carry facts about [m] over to [m'] along F : frame m m' l *)
Ltac nin ND := solve [ dj ND | cbn [In]; let X := fresh in intros X; repeat (destruct X as [X|X]; [first [congruence|subst; dj ND]|]); destruct X ].
Ltac carry F ND :=
  match type of F with frame ?m ?m' ?l =>
    repeat match goal with
    | H : cell m ?x = Some ?n |- _ => first [
        let X := fresh "X" in assert (X : cell m' x = Some n) by (apply (frame_cell m m' l x n F); [nin ND|exact H]); clear H; rename X into H
        | clear H ]
    | H : rep m ?T ?p |- _ => first [
        let X := fresh "X" in assert (X : rep m' T p) by (apply (frame_rep m m' l T p F); [intros ? ?; nin ND|exact H]); clear H; rename X into H
        | clear H ]
    | H : crep m ?c ?h |- _ => first [
        let X := fresh "X" in assert (X : crep m' c h) by (apply (frame_crep m m' l c h F); [intros ? ?; nin ND|exact H]); clear H; rename X into H
        | clear H ]
    end
  end.
Ltac tm ND H f :=
  match type of H with cell ?m ?i = Some _ =>
    let m' := fresh "m" in let E := fresh "E" in let A := fresh "A" in let F := fresh "F" in
    destruct (tmod_step m i f _ H) as (m' & E & A & F); rewrite E; clear E; cbn [bind]; clear H; carry F ND; rename A into H;
    unfold set_left, set_right, set_parent, set_inf in H; cbn [n_inf n_left n_right n_parent] in H
  end.
Ltac tg H := rewrite (tget_ok _ _ _ H); cbn [bind n_inf n_left n_right n_parent].

Ltac fr := 
  match goal with |- frame ?m ?m' _ =>
    let rec go F := (match type of F with
      | frame m ?m2 _ => first [ unify m2 m'; eapply frame_incl; [exact F|] | match goal with F2 : frame m2 ?m3 _ |- _ => go (frame_trans _ _ _ _ _ F F2) end ] end) in
    match goal with F : frame m ?m1 _ |- _ => go F end
  end;
  let i := fresh in let Hi := fresh in intros i Hi; rewrite cnt_In in *; rewrite ?cnt_plug; cbn [idx cidx]; repeat (first [rewrite cnt_app in *|rewrite cnt_cons in *|rewrite cnt_nil in *]); lia.

Section Rot2.
  Context {D : Type}.
  Notation info := (info D). Notation node := (node D). Notation mem := (mem D). Notation bt := (bt D). Notation ctx := (ctx D).
  (** frames relative to the first memory *)

  Lemma right_rotate_ok (m : mem) rt (c : ctx) (a : bt) k xk (b : bt) j xj (d : bt) : tree_at m rt (plug c (N (N a k xk b) j xj d)) ->
    exists m' rt', right_rotate m rt (Some j) (Some k) = Ret (m', rt') /\ tree_at m' rt' (plug c (N a k xk (N b j xj d))) /\ frame m m' (idx (plug c (N (N a k xk b) j xj d))).
  Proof.
    intros (HR & ND0 & ->). assert (ND := ND0). rewrite nodup_cnt in ND. apply rep_plug in HR as (HC & HR). cbn [rep root] in HC, HR. destruct HR as (Hj & (Hk & Ha & Hb) & Hd).
    destruct (nodup_sub _ _ ND0) as [NC NT]. destruct (nodup_N _ _ _ _ NT) as [NK _]. destruct (nodup_N _ _ _ _ NK) as [_ NB].
    assert (Ejk : j <> k) by dj ND.
    unfold right_rotate. tg Hk.
    destruct (setpar_ok m b (Some k) (Some j) Hb NB) as (m1 & E1 & Hb1 & F1). rewrite E1. cbn [bind]. clear E1 Hb. carry F1 ND.
    tm ND Hj (set_left (D := D) (root b)). tg Hj. tm ND Hk (set_parent (D := D) (cpar c)). tg Hk.
    match goal with H : crep ?mm c _ |- _ => destruct (relink_ok mm c j (Some k) H NC) as (m4 & E4 & HC4 & F4); [dj ND|]; clear H end. rewrite E4. cbn [bind]. clear E4. carry F4 ND.
    tm ND Hj (set_parent (D := D) (Some k)). tm ND Hk (set_right (D := D) (Some j)). tg Hk.
    eexists. eexists. split; [reflexivity|]. split.
    - split; [|split].
      + apply rep_plug. cbn [rep root]. auto 10.
      + eapply perm_cnt; [|exact ND0]. intros x. rewrite !cnt_plug. cbn [idx]. repeat (first [rewrite cnt_app|rewrite cnt_cons]). lia.
      + destruct c as [|c p x r|c l p x]; cbn [cpar]; [reflexivity|apply root_plug; discriminate|apply root_plug; discriminate].
    - fr.
  Qed.

  Lemma left_rotate_ok (m : mem) rt (c : ctx) (a : bt) k xk (b : bt) j xj (d : bt) : tree_at m rt (plug c (N a j xj (N b k xk d))) ->
    exists m' rt', left_rotate m rt (Some j) (Some k) = Ret (m', rt') /\ tree_at m' rt' (plug c (N (N a j xj b) k xk d)) /\ frame m m' (idx (plug c (N a j xj (N b k xk d)))).
  Proof.
    intros (HR & ND0 & ->). assert (ND := ND0). rewrite nodup_cnt in ND. apply rep_plug in HR as (HC & HR). cbn [rep root] in HC, HR. destruct HR as (Hj & Ha & (Hk & Hb & Hd)).
    destruct (nodup_sub _ _ ND0) as [NC NT]. destruct (nodup_N _ _ _ _ NT) as [_ NK]. destruct (nodup_N _ _ _ _ NK) as [NB _].
    assert (Ejk : j <> k) by dj ND.
    unfold left_rotate. tg Hk.
    destruct (setpar_ok m b (Some k) (Some j) Hb NB) as (m1 & E1 & Hb1 & F1). rewrite E1. cbn [bind]. clear E1 Hb. carry F1 ND.
    tm ND Hj (set_right (D := D) (root b)). tg Hj. tm ND Hk (set_parent (D := D) (cpar c)). tg Hk.
    match goal with H : crep ?mm c _ |- _ => destruct (relink_ok mm c j (Some k) H NC) as (m4 & E4 & HC4 & F4); [dj ND|]; clear H end. rewrite E4. cbn [bind]. clear E4. carry F4 ND.
    tm ND Hj (set_parent (D := D) (Some k)). tm ND Hk (set_left (D := D) (Some j)). tg Hk.
    eexists. eexists. split; [reflexivity|]. split.
    - split; [|split].
      + apply rep_plug. cbn [rep root]. auto 10.
      + eapply perm_cnt; [|exact ND0]. intros x. rewrite !cnt_plug. cbn [idx]. repeat (first [rewrite cnt_app|rewrite cnt_cons]). lia.
      + destruct c as [|c p x r|c l p x]; cbn [cpar]; [reflexivity|apply root_plug; discriminate|apply root_plug; discriminate].
    - fr.
  Qed.

  Lemma left_right_rotate_ok (m : mem) rt (c : ctx) (a : bt) k xk (v : bt) i xi (w : bt) j xj (d : bt) : tree_at m rt (plug c (N (N a k xk (N v i xi w)) j xj d)) ->
    exists m' rt', left_right_rotate m rt (Some j) (Some k) = Ret (m', rt') /\ tree_at m' rt' (plug c (N (N a k xk v) i xi (N w j xj d))) /\ frame m m' (idx (plug c (N (N a k xk (N v i xi w)) j xj d))).
  Proof.
    intros (HR & ND0 & ->). assert (ND := ND0). rewrite nodup_cnt in ND. apply rep_plug in HR as (HC & HR). cbn [rep root] in HC, HR. destruct HR as (Hj & (Hk & Ha & (Hi & Hv & Hw)) & Hd).
    destruct (nodup_sub _ _ ND0) as [NC NT]. destruct (nodup_N _ _ _ _ NT) as [NK _]. destruct (nodup_N _ _ _ _ NK) as [_ NI]. destruct (nodup_N _ _ _ _ NI) as [NV NW].
    assert (Ejk : j <> k) by dj ND. assert (Eij : i <> j) by dj ND. assert (Eik : i <> k) by dj ND.
    unfold left_right_rotate. tg Hk. tg Hi. tm ND Hk (set_right (D := D) (root v)). tm ND Hj (set_left (D := D) (root w)).
    match goal with H : rep ?mm v _ |- _ => destruct (setpar_ok mm v (Some i) (Some k) H NV) as (mv & E1 & Hv1 & Fv); rewrite E1; cbn [bind]; clear E1 H; carry Fv ND; rename Hv1 into Hv end.
    match goal with H : rep ?mm w _ |- _ => destruct (setpar_ok mm w (Some i) (Some j) H NW) as (mw & E2 & Hw2 & Fw); rewrite E2; cbn [bind]; clear E2 H; carry Fw ND; rename Hw2 into Hw end.
    tg Hj. tm ND Hi (fun n : node => mknode (n_inf n) (Some k) (Some j) (cpar c)). tm ND Hk (set_parent (D := D) (Some i)). tm ND Hj (set_parent (D := D) (Some i)). tg Hi.
    assert (NJ : ~ In j (cidx c)) by dj ND.
    match goal with H : crep ?mm c _ |- _ => destruct (relink_ok mm c j (Some i) H NC NJ) as (mz & E4 & HC4 & Fz); clear H end. 
    assert (EE : (match cpar c with Some _ => t <- relink m4 (cpar c) (Some j) (Some i) ;; Ret (t, root (plug c (N (N a k xk (N v i xi w)) j xj d))) | None => Ret (m4, Some i) end) = Ret (mz, root (plug c (N (N a k xk v) i xi (N w j xj d))))).
    { destruct c as [|c p x r|c l p x]; cbn [cpar plug root] in *; [congruence|..]; rewrite E4; cbn [bind]; f_equal; f_equal; apply root_plug; reflexivity. }
    rewrite EE. clear E4 EE. carry Fz ND.
    eexists. eexists. split; [reflexivity|]. split.
    - split; [|split; [|reflexivity]].
      + apply rep_plug. cbn [rep root]. auto 10.
      + eapply perm_cnt; [|exact ND0]. intros x. rewrite !cnt_plug. cbn [idx]. repeat (first [rewrite cnt_app|rewrite cnt_cons]). lia.
    - fr.
  Qed.

  Lemma right_left_rotate_ok (m : mem) rt (c : ctx) (a : bt) k xk (v : bt) i xi (w : bt) j xj (d : bt) : tree_at m rt (plug c (N a j xj (N (N v i xi w) k xk d))) ->
    exists m' rt', right_left_rotate m rt (Some j) (Some k) = Ret (m', rt') /\ tree_at m' rt' (plug c (N (N a j xj v) i xi (N w k xk d))) /\ frame m m' (idx (plug c (N a j xj (N (N v i xi w) k xk d)))).
  Proof.
    intros (HR & ND0 & ->). assert (ND := ND0). rewrite nodup_cnt in ND. apply rep_plug in HR as (HC & HR). cbn [rep root] in HC, HR. destruct HR as (Hj & Ha & (Hk & (Hi & Hv & Hw) & Hd)).
    destruct (nodup_sub _ _ ND0) as [NC NT]. destruct (nodup_N _ _ _ _ NT) as [_ NK]. destruct (nodup_N _ _ _ _ NK) as [NI _]. destruct (nodup_N _ _ _ _ NI) as [NV NW].
    assert (Ejk : j <> k) by dj ND. assert (Eij : i <> j) by dj ND. assert (Eik : i <> k) by dj ND.
    unfold right_left_rotate. tg Hk. tg Hi. tm ND Hk (set_left (D := D) (root w)). tm ND Hj (set_right (D := D) (root v)).
    match goal with H : rep ?mm v _ |- _ => destruct (setpar_ok mm v (Some i) (Some j) H NV) as (mv & E1 & Hv1 & Fv); rewrite E1; cbn [bind]; clear E1 H; carry Fv ND; rename Hv1 into Hv end.
    match goal with H : rep ?mm w _ |- _ => destruct (setpar_ok mm w (Some i) (Some k) H NW) as (mw & E2 & Hw2 & Fw); rewrite E2; cbn [bind]; clear E2 H; carry Fw ND; rename Hw2 into Hw end.
    tg Hj. tm ND Hi (fun n : node => mknode (n_inf n) (Some j) (Some k) (cpar c)). tm ND Hk (set_parent (D := D) (Some i)). tm ND Hj (set_parent (D := D) (Some i)). tg Hi.
    assert (NJ : ~ In j (cidx c)) by dj ND.
    match goal with H : crep ?mm c _ |- _ => destruct (relink_ok mm c j (Some i) H NC NJ) as (mz & E4 & HC4 & Fz); clear H end. 
    assert (EE : (match cpar c with Some _ => t <- relink m4 (cpar c) (Some j) (Some i) ;; Ret (t, root (plug c (N a j xj (N (N v i xi w) k xk d)))) | None => Ret (m4, Some i) end) = Ret (mz, root (plug c (N (N a j xj v) i xi (N w k xk d))))).
    { destruct c as [|c p x r|c l p x]; cbn [cpar plug root] in *; [congruence|..]; rewrite E4; cbn [bind]; f_equal; f_equal; apply root_plug; reflexivity. }
    rewrite EE. clear E4 EE. carry Fz ND.
    eexists. eexists. split; [reflexivity|]. split.
    - split; [|split; [|reflexivity]].
      + apply rep_plug. cbn [rep root]. auto 10.
      + eapply perm_cnt; [|exact ND0]. intros x. rewrite !cnt_plug. cbn [idx]. repeat (first [rewrite cnt_app|rewrite cnt_cons]). lia.
    - fr.
  Qed.
End Rot2.
