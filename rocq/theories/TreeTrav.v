(** Proofs: the traversals of BinaryTreeTraversal. *)
From Verif Require Import Base TreeModel TreeProofs TreeRotate TreeBst.

(** Specification of the visiting orders on trees. *)
Section TravSpec.
  Context {D : Type}.
  Notation info := (info D). Notation bt := (bt D).
  Fixpoint pre (T : bt) : list info := match T with E => [] | N l _ x r => x :: pre l ++ pre r end.
  Fixpoint post (T : bt) : list info := match T with E => [] | N l _ x r => post l ++ post r ++ [x] end.
  Fixpoint zipapp {A} (a b : list (list A)) : list (list A) :=
    match a, b with [], _ => b | _, [] => a | x :: a', y :: b' => (x ++ y) :: zipapp a' b' end.
  (** the levels of a tree, each from left to right *)
  Fixpoint levels (T : bt) : list (list info) := match T with E => [] | N l _ x r => [x] :: zipapp (levels l) (levels r) end.
End TravSpec.

Section Trav.
  Context {D : Type}.
  Notation info := (info D). Notation node := (node D). Notation mem := (mem D). Notation bst := (bst D). Notation bt := (bt D). Notation ctx := (ctx D).

  (** a nonempty represented tree *)
  Definition reps (m : mem) (T : bt) : Prop := T <> E /\ exists p, rep m T p.
  Lemma reps_N m l i x r : reps m (N l i x r) -> (exists p, cell m i = Some (mknode x (root l) (root r) p)) /\ rep m l (Some i) /\ rep m r (Some i).
  Proof. intros (_ & p & A & B & C). eauto. Qed.
  Fixpoint total (l : list bt) : Z := match l with [] => 0 | T :: l' => nodes T + total l' end.
  Lemma total_nonneg l : 0 <= total l.
  Proof. induction l as [|T l IH]; cbn [total]; [lia|]. pose proof (nodes_nonneg T). lia. Qed.
  Lemma total_app a b : total (a ++ b) = total a + total b.
  Proof. induction a as [|T a IH]; cbn [total app]; lia. Qed.
  Definition sub (T : bt) : list bt := match T with E => [] | _ => [T] end.
  Lemma sub_reps m T p : rep m T p -> Forall (reps m) (sub T).
  Proof. destruct T; cbn [sub]; [constructor|]. intros H. constructor; [split; [discriminate|exists p; exact H]|constructor]. Qed.
  Lemma sub_total T : total (sub T) = nodes T.
  Proof. destruct T; cbn [sub total nodes]; lia. Qed.
  Lemma sub_root T (s : list (option Z)) : match root T with Some _ => root T :: s | None => s end = map root (sub T) ++ s.
  Proof. destruct T; reflexivity. Qed.
  Lemma sub_pre T : concat (map pre (sub T)) = pre T.
  Proof. destruct T; cbn [sub map concat]; [reflexivity|]. apply app_nil_r. Qed.

  Lemma pre_order_ok (m : mem) T p i : rep m T p -> NoDup (idx T) -> root T = Some i -> pre_order m (Some i) = Ret (pre T).
  Proof.
    intros HR ND HI. assert (W : wp (pre_order m (Some i)) (fun v => v = pre T)).
    { unfold pre_order. eapply (wp_while_g (fun n st => exists Ts, fst st = map root Ts /\ Forall (reps m) Ts /\ snd st ++ concat (map pre Ts) = pre T /\ n = Z.to_nat (total Ts))).
      - intros n [s v] (Ts & Es & F & Ev & ->). cbn [fst snd] in *. subst s. destruct Ts as [|S Ts]; cbn [map].
        + cbn [wp]. cbn [map concat] in Ev. rewrite app_nil_r in Ev. exact Ev.
        + inversion F as [|? ? FS FT]; subst. destruct S as [|l j x r]; [destruct FS; congruence|]. destruct (reps_N _ _ _ _ _ FS) as ((q & A) & B & C). cbn [root]. rewrite (tget_ok _ _ _ A). cbn [bind n_left n_right n_inf wp].
          exists (Z.to_nat (total (sub l ++ sub r ++ Ts))). pose proof (total_nonneg Ts). pose proof (nodes_nonneg l). pose proof (nodes_nonneg r). split; [cbn [total nodes]; rewrite !total_app, !sub_total; lia|].
          exists (sub l ++ sub r ++ Ts). cbn [fst snd]. rewrite !map_app, !sub_root. split; [reflexivity|]. split; [rewrite !Forall_app; eauto using sub_reps|]. split; [|reflexivity].
          rewrite <- Ev. cbn [map concat pre]. rewrite !concat_app, !sub_pre, <- !app_assoc. cbn [app]. rewrite <- !app_assoc. reflexivity.
      - exists [T]. cbn [fst snd map]. rewrite HI. split; [reflexivity|]. split; [constructor; [split; [destruct T; discriminate|exists p; exact HR]|constructor]|]. cbn [concat]. rewrite app_nil_r. split; [reflexivity|reflexivity].
      - assert (H := nodes_mem m T p HR ND). cbn [total]. unfold fuel, len in *. lia. }
    apply wp_ex in W as (v & E1 & ->). exact E1.
  Qed.

  (** in-order: a stack entry is a node whose left subtree has been visited *)
  Definition frm : Type := Z * info * bt.
  Definition frm_ok (m : mem) (f : frm) : Prop := let '(i, x, r) := f in (exists l q, cell m i = Some (mknode x l (root r) q)) /\ rep m r (Some i).
  Definition fidx (f : frm) : option Z := let '(i, _, _) := f in Some i.
  Definition fout (f : frm) : list info := let '(_, x, r) := f in x :: infos r.
  Fixpoint fmeas (l : list frm) : Z := match l with [] => 0 | (_, _, r) :: l' => 1 + 2 * nodes r + fmeas l' end.
  Lemma fmeas_nonneg l : 0 <= fmeas l.
  Proof. induction l as [|[[i x] r] l IH]; cbn [fmeas]; [lia|]. pose proof (nodes_nonneg r). lia. Qed.
  Lemma in_order_ok (m : mem) T p i : rep m T p -> NoDup (idx T) -> root T = Some i -> in_order m (Some i) = Ret (infos T).
  Proof.
    intros HR ND HI. assert (W : wp (in_order m (Some i)) (fun v => v = infos T)).
    { unfold in_order. eapply (wp_while_g (fun n st => let '(s, nd, v) := st in exists (S : bt) fs, nd = root S /\ s = map fidx fs /\ (exists q, rep m S q) /\ Forall (frm_ok m) fs /\ v ++ infos S ++ concat (map fout fs) = infos T /\ n = Z.to_nat (2 * nodes S + fmeas fs))).
      - intros n [[s nd] v] (S & fs & -> & -> & (q & HS) & F & Ev & ->). pose proof (fmeas_nonneg fs). destruct S as [|l j x r]; cbn [root].
        + destruct fs as [|[[j x] r] fs]; cbn [map].
          * cbn [wp]. cbn [infos map concat app] in Ev. rewrite app_nil_r in Ev. exact Ev.
          * inversion F as [|? ? Hf FT]; subst. cbn [frm_ok] in Hf. destruct Hf as [(ll & qq & A) B]. cbn [fidx]. rewrite (tget_ok _ _ _ A). cbn [bind n_right n_inf wp]. pose proof (nodes_nonneg r). pose proof (fmeas_nonneg fs).
            eexists. split; [|exists r, fs; split; [reflexivity|]; split; [reflexivity|]; split; [eauto|]; split; [exact FT|]; split; [|reflexivity]].
            -- cbn [fmeas nodes]. lia.
            -- rewrite <- Ev. cbn [infos map concat fout app]. rewrite <- ?app_assoc. cbn [app]. rewrite <- ?app_assoc. reflexivity.
        + destruct HS as (A & B & C). rewrite (tget_ok _ _ _ A). cbn [bind n_left wp]. pose proof (nodes_nonneg l). pose proof (nodes_nonneg r).
          eexists. split; [|exists l, ((j, x, r) :: fs); split; [reflexivity|]; split; [reflexivity|]; split; [eauto|]; split; [|split; [|reflexivity]]].
          * cbn [fmeas nodes]. lia.
          * constructor; [split; [eauto|exact C]|exact F].
          * rewrite <- Ev. cbn [infos map concat fout app]. rewrite <- ?app_assoc. cbn [app]. rewrite <- ?app_assoc. reflexivity.
      - exists T, []. rewrite HI. cbn [map concat infos app]. rewrite app_nil_r. split; [reflexivity|]. split; [reflexivity|]. split; [eauto|]. split; [constructor|]. split; [reflexivity|reflexivity].
      - assert (H := nodes_mem m T p HR ND). cbn [fmeas]. unfold fuel, len in *. lia. }
    apply wp_ex in W as (v & E1 & ->). exact E1.
  Qed.
  Lemma out_order_ok (m : mem) T p i : rep m T p -> NoDup (idx T) -> root T = Some i -> out_order m (Some i) = Ret (rev (infos T)).
  Proof. intros HR ND HI. unfold out_order. rewrite (in_order_ok m T p i HR ND HI). reflexivity. Qed.

  (** level order *)
  Lemma zipapp_nil_r {A} (a : list (list A)) : zipapp a [] = a.
  Proof. destruct a; reflexivity. Qed.
  Lemma zipapp_assoc {A} (a : list (list A)) : forall b c, zipapp (zipapp a b) c = zipapp a (zipapp b c).
  Proof. induction a as [|x a IH]; intros [|y b] [|z c]; cbn [zipapp]; try reflexivity. rewrite IH, app_assoc. reflexivity. Qed.
  Definition flevels (l : list bt) : list (list info) := fold_right zipapp [] (map levels l).
  Lemma flevels_app a b : flevels (a ++ b) = zipapp (flevels a) (flevels b).
  Proof. unfold flevels. induction a as [|T a IH]; cbn [map app fold_right]; [reflexivity|]. rewrite IH, zipapp_assoc. reflexivity. Qed.
  Definition rinf (T : bt) : list info := match T with E => [] | N _ _ x _ => [x] end.
  Definition kids (T : bt) : list bt := match T with E => [] | N l _ _ r => sub l ++ sub r end.
  Lemma flevels_sub T : flevels (sub T) = levels T.
  Proof. destruct T; [reflexivity|]. unfold flevels. cbn [sub map fold_right]. apply zipapp_nil_r. Qed.
  Lemma levels_N l i x r : levels (N l i x r) = [x] :: flevels (kids (N l i x r)).
  Proof. cbn [levels kids]. rewrite flevels_app, !flevels_sub. reflexivity. Qed.
  Lemma flevels_step l : l <> [] -> Forall (fun T => T <> E) l -> flevels l = concat (map rinf l) :: flevels (concat (map kids l)).
  Proof.
    intros HN F. induction F as [|T l HT F IH]; [congruence|]. destruct T as [|a i x b]; [congruence|]. cbn [map concat]. rewrite flevels_app. change (flevels (N a i x b :: l)) with (zipapp (levels (N a i x b)) (flevels l)). rewrite levels_N. destruct l as [|T l].
    - cbn [map concat flevels fold_right]. rewrite !zipapp_nil_r. reflexivity.
    - rewrite IH by discriminate. cbn [zipapp rinf]. reflexivity.
  Qed.
  Lemma reps_ne m l : Forall (reps m) l -> Forall (fun T : bt => T <> E) l.
  Proof. apply Forall_impl. intros T [H _]. exact H. Qed.
  Lemma tree_bfs_ok (m : mem) T p i : rep m T p -> NoDup (idx T) -> root T = Some i -> tree_bfs m (Some i) = Ret (concat (levels T)).
  Proof.
    intros HR ND HI. assert (W : wp (tree_bfs m (Some i)) (fun v => v = concat (levels T))).
    { unfold tree_bfs. eapply (wp_while_g (fun n st => exists A B, fst st = map root (A ++ B) /\ Forall (reps m) (A ++ B) /\ snd st ++ concat (map rinf A) ++ concat (flevels (B ++ concat (map kids A))) = concat (levels T) /\ n = Z.to_nat (total (A ++ B)))).
      - intros n [q v] (A & B & Eq & F & Ev & ->). cbn [fst snd] in *. subst q.
        assert (K : A ++ B = [] \/ exists S A' B', A ++ B = (S :: A') ++ B' /\ v ++ concat (map rinf (S :: A')) ++ concat (flevels (B' ++ concat (map kids (S :: A')))) = concat (levels T)).
        { destruct A as [|S A']; [|right; exists S, A', B; split; [reflexivity|exact Ev]]. destruct B as [|S B']; [left; reflexivity|]. right. exists S, B', []. split; [cbn [app]; rewrite app_nil_r; reflexivity|].
          rewrite <- Ev. cbn [app map concat]. rewrite app_nil_r. rewrite (flevels_step (S :: B')); [|discriminate|apply (reps_ne m); exact F]. reflexivity. }
        destruct K as [K|(S & A' & B' & K & Ev')].
        + rewrite K. cbn [map wp]. apply app_eq_nil in K as [-> ->]. cbn [map concat app] in Ev. change (flevels (@nil bt)) with (@nil (list info)) in Ev. cbn [concat] in Ev. rewrite app_nil_r in Ev. exact Ev.
        + rewrite K in *. cbn [app map]. cbn [app] in F. inversion F as [|? ? FS FT]; subst. destruct S as [|l j x r]; [destruct FS; congruence|]. destruct (reps_N _ _ _ _ _ FS) as ((q & C) & L & R). cbn [root]. rewrite (tget_ok _ _ _ C). cbn [bind n_left n_right n_inf wp].
          pose proof (total_nonneg A'). pose proof (total_nonneg B'). pose proof (nodes_nonneg l). pose proof (nodes_nonneg r).
          eexists. split; [|exists A', (B' ++ sub l ++ sub r); cbn [fst snd]; split; [|split; [|split; [|reflexivity]]]].
          * cbn [total nodes app]. rewrite !total_app, !sub_total. lia.
          * rewrite !map_app. destruct l, r; cbn [root sub map]; rewrite ?app_nil_r, <- ?app_assoc; reflexivity.
          * apply Forall_app in FT as [F1 F2]. rewrite !Forall_app. repeat split; eauto using sub_reps.
          * rewrite <- Ev'. cbn [map concat rinf kids]. rewrite <- !app_assoc. cbn [app]. rewrite <- ?app_assoc. reflexivity.
      - exists [T], []. cbn [fst snd map app]. rewrite HI. split; [reflexivity|]. split; [constructor; [split; [destruct T; discriminate|exists p; exact HR]|constructor]|]. split; [|reflexivity].
        cbn [map concat]. rewrite !app_nil_r. destruct T as [|l j x r]; [discriminate|]. rewrite levels_N. reflexivity.
      - assert (H := nodes_mem m T p HR ND). cbn [app total]. unfold fuel, len in *. lia. }
    apply wp_ex in W as (v & E1 & ->). exact E1.
  Qed.

  (** post-order *)
  Fixpoint pidx (T : bt) : list Z := match T with E => [] | N l i _ r => pidx l ++ pidx r ++ [i] end.
  Lemma pidx_cnt T z : cnt z (pidx T) = cnt z (idx T).
  Proof. induction T as [|l IHl i x r IHr]; [reflexivity|]. cbn [pidx]. cnts. lia. Qed.
  Inductive item := Todo (T : bt) | Fin (l : bt) (i : Z) (x : info) (r : bt).
  Definition item_idx (t : item) : list Z := match t with Todo T => pidx T | Fin _ i _ _ => [i] end.
  Definition item_out (t : item) : list info := match t with Todo T => post T | Fin _ _ x _ => [x] end.
  Definition item_top (t : item) : option Z := match t with Todo T => root T | Fin _ i _ _ => Some i end.
  Fixpoint item_meas (l : list item) : Z := match l with [] => 0 | Todo T :: l' => 2 * nodes T + item_meas l' | Fin _ _ _ _ :: l' => 1 + item_meas l' end.
  Lemma item_meas_nonneg l : 0 <= item_meas l.
  Proof. induction l as [|[T|] l IH]; cbn [item_meas]; try pose proof (nodes_nonneg T); lia. Qed.
  Fixpoint pwf (m : mem) (V : list Z) (l : list item) : Prop :=
    match l with
    | [] => True
    | Todo T :: l' => reps m T /\ pwf m (V ++ pidx T) l'
    | Fin l i x r :: l' => (exists V0, V = V0 ++ pidx l ++ pidx r) /\ (exists q, cell m i = Some (mknode x (root l) (root r) q)) /\ pwf m (V ++ [i]) l'
    end.
  Definition itodo (T : bt) : list item := match T with E => [] | _ => [Todo T] end.
  Lemma pidx_root T i : root T = Some i -> In i (pidx T).
  Proof. intros H. apply root_In in H. rewrite cnt_In, pidx_cnt, <- cnt_In. exact H. Qed.
  Lemma itodo_idx T : concat (map item_idx (itodo T)) = pidx T.
  Proof. destruct T; cbn [itodo map concat item_idx]; [reflexivity|apply app_nil_r]. Qed.
  Lemma itodo_out T : concat (map item_out (itodo T)) = post T.
  Proof. destruct T; cbn [itodo map concat item_out]; [reflexivity|apply app_nil_r]. Qed.
  Lemma pwf_itodo m V T q l : rep m T q -> pwf m (V ++ pidx T) l -> pwf m V (itodo T ++ l).
  Proof. destruct T; cbn [itodo app pwf pidx]; [rewrite app_nil_r; auto|]. intros H1 H2. split; [split; [discriminate|eauto]|exact H2]. Qed.
  Lemma itodo_meas T l : item_meas (itodo T ++ l) = 2 * nodes T + item_meas l.
  Proof. destruct T; cbn [itodo app item_meas nodes]; lia. Qed.
  Lemma itodo_top T (s : list (option Z)) b : (b = negb (is_none (root T))) -> (if b then root T :: s else s) = map item_top (itodo T) ++ s.
  Proof. intros ->. destruct T; reflexivity. Qed.

  Lemma post_order_ok (m : mem) T p i size : rep m T p -> NoDup (idx T) -> root T = Some i -> (forall j, In j (idx T) -> 0 <= j < size) -> post_order m size (Some i) = Ret (post T).
  Proof.
    intros HR ND HI HS. assert (W : wp (post_order m size (Some i)) (fun v => v = post T)).
    { unfold post_order.
      set (done := fun (last : list bool) (o : option Z) => match o with None => Ret true | Some i => aget last i end).
      eapply (wp_while_g (fun n st => let '(s, last, v) := st in exists V its, s = map item_top its /\ pwf m V its /\ V ++ concat (map item_idx its) = pidx T /\ v ++ concat (map item_out its) = post T /\
         len last = Z.max 0 size /\ (forall j, 0 <= j < size -> zn false last j = true <-> In j V) /\ n = Z.to_nat (item_meas its))).
      - intros n [[s last] v] (V & its & -> & HW & EI & Ev & HL & HM & ->).
        destruct its as [|it its]; cbn [map]; [cbn [wp]; cbn [map concat] in Ev; rewrite app_nil_r in Ev; exact Ev|].
        assert (NDP : forall z, (cnt z (V ++ concat (map item_idx (it :: its))) <= 1)%nat). { intros z. rewrite EI, pidx_cnt. apply nodup_cnt. exact ND. }
        assert (RNG : forall j, In j (V ++ concat (map item_idx (it :: its))) -> 0 <= j < size). { intros j Hj. apply HS. rewrite cnt_In, <- pidx_cnt, <- EI, <- cnt_In. exact Hj. }
        assert (DN : forall S : bt, (forall j, root S = Some j -> In j V) -> done last (root S) = Ret true).
        { intros S H. destruct S as [|a j x b]; cbn [root]; [reflexivity|]. unfold done. assert (In j V) as HV by (apply H; reflexivity). assert (0 <= j < size) by (apply RNG, in_or_app; left; exact HV). rewrite (aget_ok _ false) by lia. f_equal. apply HM; assumption. }
        assert (DT : forall S : bt, (forall j, root S = Some j -> In j (concat (map item_idx (it :: its)))) -> done last (root S) = Ret (is_none (root S))).
        { intros S H. destruct S as [|a j x b]; cbn [root is_none]; [reflexivity|]. unfold done. assert (In j (concat (map item_idx (it :: its)))) as HV by (apply H; reflexivity). assert (0 <= j < size) as HJ by (apply RNG, in_or_app; right; exact HV). rewrite (aget_ok _ false) by lia.
          destruct (zn false last j) eqn:Ez; [|reflexivity]. apply HM in Ez; [|exact HJ]. exfalso. specialize (NDP j). rewrite cnt_app in NDP. rewrite cnt_In in Ez, HV. lia. }
        (* leaving a node whose children are visited *)
        assert (FIN : forall (l : bt) j x (r : bt) q, cell m j = Some (mknode x (root l) (root r) q) -> (forall k, root l = Some k -> In k V) -> (forall k, root r = Some k -> In k V) -> item_top it = Some j -> item_idx it = [j] -> item_out it = [x] -> pwf m (V ++ [j]) its -> 0 < item_meas (it :: its) - item_meas its ->
          wp (n0 <- tget m (item_top it) ;; cl <- done last (n_left n0) ;; cr <- done last (n_right n0) ;;
             (if cl && cr then last <- (match item_top it with Some i => aset last i true | None => Raise TypeError end) ;; Ret (Next (map item_top its, last, v ++ [n_inf n0]))
              else Ret (Next (if negb cl then n_left n0 :: (if negb cr then n_right n0 :: item_top it :: map item_top its else item_top it :: map item_top its) else (if negb cr then n_right n0 :: item_top it :: map item_top its else item_top it :: map item_top its), last, v))))
           (fun r => match r with Next s' => exists n', (n' < Z.to_nat (item_meas (it :: its)))%nat /\ (let '(s, last, v) := s' in exists V its, s = map item_top its /\ pwf m V its /\ V ++ concat (map item_idx its) = pidx T /\ v ++ concat (map item_out its) = post T /\
         len last = Z.max 0 size /\ (forall j, 0 <= j < size -> zn false last j = true <-> In j V) /\ n' = Z.to_nat (item_meas its)) | Break r => r = post T end)).
        { intros l j x r q HC HL1 HR1 E1 E2 E3 HW' HM'. rewrite E1, (tget_ok _ _ _ HC). cbn [bind n_left n_right n_inf]. rewrite (DN l HL1), (DN r HR1). cbn [bind andb].
          assert (0 <= j < size) by (apply RNG, in_or_app; right; cbn [map concat]; rewrite E2; left; reflexivity).
          rewrite aset_ok by lia. cbn [bind wp]. pose proof (item_meas_nonneg its). exists (Z.to_nat (item_meas its)). split; [lia|]. exists (V ++ [j]), its. split; [reflexivity|]. split; [exact HW'|]. cbn [map concat] in EI, Ev. rewrite E2 in EI. rewrite E3 in Ev.
          split; [rewrite <- app_assoc; exact EI|]. split; [rewrite <- app_assoc; exact Ev|]. split; [rewrite len_zupd; exact HL|]. split; [|reflexivity].
          intros k Hk. rewrite in_app_iff. destruct (Z.eq_dec k j) as [->|NE]; [rewrite zn_zupd_eq by lia; split; [intros _; right; left; reflexivity|reflexivity]|]. rewrite zn_zupd_ne by lia. rewrite (HM k Hk). split; [auto|]. intros [HQ|[HQ|[]]]; [exact HQ|congruence]. }
        destruct it as [S|l j x r].
        + destruct HW as [HS0 HW]. destruct S as [|l j x r]; [destruct HS0; congruence|]. destruct (reps_N _ _ _ _ _ HS0) as ((q & C) & L & R).
          destruct (is_none (root l) && is_none (root r)) eqn:EB.
          { apply andb_prop in EB as [EB1 EB2]. assert (l = E) as -> by (destruct l; [reflexivity|discriminate]). assert (r = E) as -> by (destruct r; [reflexivity|discriminate]).
               refine (FIN E j x E q C _ _ eq_refl eq_refl eq_refl HW _); [discriminate|discriminate|]. cbn [item_meas nodes]. lia. }
          all: clear FIN; cbn [item_top root]; rewrite (tget_ok _ _ _ C); cbn [bind n_left n_right n_inf];
            assert (D1 : forall k, root l = Some k -> In k (concat (map item_idx (Todo (N l j x r) :: its)))) by (intros k Hk; cbn [map concat item_idx pidx]; rewrite !in_app_iff; left; left; apply pidx_root; exact Hk);
            assert (D2 : forall k, root r = Some k -> In k (concat (map item_idx (Todo (N l j x r) :: its)))) by (intros k Hk; cbn [map concat item_idx pidx]; rewrite !in_app_iff; left; right; left; apply pidx_root; exact Hk);
            pose proof (DT l D1) as Y1; pose proof (DT r D2) as Y2; unfold done in Y1, Y2; rewrite Y1, Y2; clear Y1 Y2; cbn [bind];
            rewrite EB; cbn [wp];
            pose proof (item_meas_nonneg its); pose proof (nodes_nonneg l); pose proof (nodes_nonneg r);
            rewrite (itodo_top r (Some j :: map item_top its)) by reflexivity; rewrite (itodo_top l) by reflexivity;
            exists (Z.to_nat (item_meas (itodo l ++ itodo r ++ Fin l j x r :: its))); (split; [cbn [item_meas]; rewrite !itodo_meas; cbn [item_meas nodes]; lia|]);
            exists V, (itodo l ++ itodo r ++ Fin l j x r :: its); (split; [rewrite !map_app; reflexivity|]);
            (split; [apply (pwf_itodo m V l _ _ L), (pwf_itodo m _ r _ _ R); cbn [pwf]; split; [exists V; rewrite app_assoc; reflexivity|]; split; [exists q; exact C|]; rewrite <- !app_assoc; cbn [pidx] in HW; exact HW|]);
            (split; [rewrite <- EI; rewrite !map_app, !concat_app, !itodo_idx; cbn [map concat item_idx pidx]; rewrite <- !app_assoc; reflexivity|]);
            (split; [rewrite <- Ev; rewrite !map_app, !concat_app, !itodo_out; cbn [map concat item_out post]; rewrite <- !app_assoc; reflexivity|]);
            (split; [exact HL|]); (split; [exact HM|reflexivity]).
        + cbn [pwf] in HW. destruct HW as ((V0 & EV) & (q & C) & HW). refine (FIN l j x r q C _ _ eq_refl eq_refl eq_refl HW _); [| |cbn [item_meas]; lia].
          * intros k Hk. rewrite EV, !in_app_iff. right. left. apply pidx_root. exact Hk.
          * intros k Hk. rewrite EV, !in_app_iff. right. right. apply pidx_root. exact Hk.
      - exists [], [Todo T]. cbn [map item_top]. rewrite HI. split; [reflexivity|]. split; [cbn [pwf]; split; [split; [destruct T; discriminate|exists p; exact HR]|exact I]|]. cbn [map concat app item_idx item_out]. rewrite !app_nil_r. split; [reflexivity|]. split; [reflexivity|].
        split; [unfold len; rewrite repeat_length; lia|]. split; [|reflexivity]. intros j Hj. split; [|intros []]. intros H. exfalso. unfold zn in H. rewrite nth_repeat in H. discriminate.
      - assert (H := nodes_mem m T p HR ND). cbn [item_meas]. unfold fuel, len in *. lia. }
    apply wp_ex in W as (v & E1 & ->). exact E1.
  Qed.
End Trav.
