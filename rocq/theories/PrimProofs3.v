(** prim with several queues (minimum_spanning_tree_parallel, C92). *)
From Coq Require Import Strings.String Relations.
From Verif Require Import Base DsfModel DsfSpec GraphModel GraphSpec GraphDict GraphProofs BinomialModel BinomialSpec BinomialProofs PQProofs MstSpec MstProofs KruskalProofs PrimModel PrimSpec PrimProofs PrimProofs2.
Import List.

Lemma v2q_ok n (l : list string) : (0 < n)%nat -> forall i d x, In x l \/ (exists j, (j < n)%nat /\ sdget d x = Some j) ->
  exists j, (j < n)%nat /\ sdget (snd (fold_left (fun '(i, d) v => (S i, sdset d v (i mod n)%nat)) l (i, d))) x = Some j.
Proof.
  intros Hn. induction l as [|v l IH]; intros i d x H; cbn [fold_left].
  - destruct H as [[]|H]. exact H.
  - apply IH. destruct H as [[->|H]|(j & Hj & H)]; [right| auto |right].
    + exists (i mod n)%nat. split; [apply Nat.mod_upper_bound; lia|apply sget_set_eq].
    + rewrite sget_set. destruct (String.eqb x v); [exists (i mod n)%nat; split; [apply Nat.mod_upper_bound; lia|reflexivity]|exists j; auto].
Qed.
Definition qall (q : list (bheap string)) : list (Z * string) := flat_map bh_elems q.
Lemma qall_upd q j h' A B : (j < length q)%nat -> Permutation (A ++ bh_elems h') (B ++ bh_elems (nth j q [])) -> Permutation (A ++ qall (upd q j h')) (B ++ qall q).
Proof.
  intros Hj P. revert j Hj P. induction q as [|h q IH]; intros [|j] Hj P; cbn [length] in Hj; try lia; cbn [nth] in P.
  - cbn [upd]. unfold qall. cbn [flat_map]. rewrite !app_assoc. apply Permutation_app_tail. exact P.
  - cbn [upd]. unfold qall. cbn [flat_map]. rewrite (Permutation_app_swap_app A), (Permutation_app_swap_app B). apply Permutation_app_head. apply (IH j); [lia|exact P].
Qed.
Lemma qall_in q x : In x (qall q) <-> exists j, (j < length q)%nat /\ In x (bh_elems (nth j q [])).
Proof.
  unfold qall. rewrite in_flat_map. split.
  - intros (h & Hh & H). apply (In_nth _ _ []) in Hh as (j & Hj & <-). eauto.
  - intros (j & Hj & H). exists (nth j q []). split; [apply nth_In; exact Hj|exact H].
Qed.
Definition is_min (h : bheap string) (o : option (bnode string)) : Prop :=
  match o with None => h = [] | Some m => exists mi, bh_find_minimum h = Ret (m, mi) /\ h <> [] /\ least (b_key m, b_data m) (bh_elems h) end.
Lemma find_min_all (q : list (bheap string)) : Forall bh_ok q -> forall acc, exists vs, forM q (fun qi acc => x <- find_min qi ;; Ret (acc ++ [x])) acc = Ret (acc ++ vs) /\ Forall2 is_min q vs.
Proof.
  induction q as [|h q IH]; intros F acc; cbn [forM]; [exists []; rewrite app_nil_r; auto|]. inversion F as [|? ? Bh F']; subst. unfold find_min at 1. destruct (bh_is_empty h) eqn:Eh; cbn [negb bind].
  - destruct h; [|discriminate]. destruct (IH F' (acc ++ [None])) as (vs & E & F2). exists (None :: vs). rewrite E, <- app_assoc. split; [reflexivity|]. constructor; [reflexivity|exact F2].
  - assert (Nh : h <> []) by (intros ->; discriminate). destruct (delete_min_ok h Bh Nh) as (m & mi & h' & Ef & _ & _ & _ & L). rewrite Ef. cbn [bind]. destruct (IH F' (acc ++ [Some m])) as (vs & E & F2). exists (Some m :: vs). rewrite E, <- app_assoc. split; [reflexivity|]. constructor; [exists mi; auto|exact F2].
Qed.
Lemma best_ok (vs : list (option (bnode string))) : forall acc, match fold_left (fun v x => if node_before x v then x else v) vs acc with
  | None => acc = None /\ forall o, In o vs -> o = None
  | Some m => (acc = Some m \/ In (Some m) vs) /\ (forall m', acc = Some m' \/ In (Some m') vs -> b_key m <= b_key m') end.
Proof.
  induction vs as [|x vs IH]; intros acc; cbn [fold_left].
  - destruct acc as [m|]; [|split; [reflexivity|intros o []]]. split; [auto|]. intros m' [[= ->]|[]]. lia.
  - specialize (IH (if node_before x acc then x else acc)). destruct (fold_left _ vs _) as [m|].
    + destruct IH as (A & B). destruct x as [x|], acc as [a|]; cbn [node_before] in A, B.
      * destruct (Z.ltb_spec (b_key x) (b_key a)) as [L|L].
        -- split; [cbn [In]; intuition|]. intros m' [[= <-]|[[= <-]|H]]; [assert (Y := B x (or_introl eq_refl)); lia|apply B; auto|apply B; auto].
        -- split; [cbn [In]; intuition|]. intros m' [[= <-]|[[= <-]|H]]; [apply B; auto|assert (Y := B a (or_introl eq_refl)); lia|apply B; auto].
      * split; [cbn [In]; intuition|]. intros m' [H|[[= <-]|H]]; [discriminate|apply B; auto|apply B; auto].
      * split; [cbn [In]; intuition|]. intros m' [H|[H|H]]; [apply B; auto|discriminate|apply B; auto].
      * split; [cbn [In]; intuition|]. intros m' [H|[H|H]]; [discriminate|discriminate|apply B; auto].
    + destruct IH as (A & B). destruct x as [x|], acc as [a|]; cbn [node_before] in A; try (destruct (b_key x <? b_key a)); try discriminate. split; [reflexivity|]. intros o [<-|H]; [reflexivity|apply B, H].
Qed.
Lemma Forall2_nth_in {A B} (P : A -> B -> Prop) l m b d : Forall2 P l m -> In b m -> exists j, (j < length l)%nat /\ P (nth j l d) b.
Proof.
  induction 1 as [|x y l m H F IH]; intros Hb; [destruct Hb|]. destruct Hb as [->|Hb]; [exists 0%nat; cbn; split; [lia|exact H]|]. destruct (IH Hb) as (j & Hj & Hp). exists (S j). cbn. split; [lia|exact Hp].
Qed.
Lemma Forall2_in_nth {A B} (P : A -> B -> Prop) l m j d : Forall2 P l m -> (j < length l)%nat -> exists b, In b m /\ P (nth j l d) b.
Proof.
  intros F. revert j. induction F as [|x y l m H F IH]; intros j Hj; cbn [length] in Hj; [lia|]. destruct j as [|j]; [exists y; cbn; auto|]. destruct (IH j ltac:(lia)) as (b & Hb & Hp). exists b. cbn. auto.
Qed.

Section Par.
  Context (n : nat) (Hn : (0 < n)%nat) (g : al) (G : dg) (R : al_rep g G) (OK : dg_ok G) (UD : undirected G) (CR : crep (al_weights g) G) (s : string) (VS : exists rest, fst G = s :: rest) (E : pedges) (HE : component (priced G) s E).
  Context (v2q : list (string * nat)) (HV : forall x, In x (fst G) -> exists j, (j < n)%nat /\ sdget v2q x = Some j).
  Definition elook (es : list (list (string * edge))) (w : string) : option edge := match sdget v2q w with Some j => sdget (nth j es []) w | None => None end.
  Definition home (q : list (bheap string)) : Prop := forall j p w, In (p, w) (bh_elems (nth j q [])) -> sdget v2q w = Some j.
  Record queues (q : list (bheap string)) (es : list (list (string * edge))) : Prop := { qs_q : length q = n; qs_e : length es = n; qs_ok : Forall bh_ok q; qs_home : home q }.
  Lemma queues_upd q es j h' : queues q es -> (j < n)%nat -> bh_ok h' -> (forall p w, In (p, w) (bh_elems h') -> sdget v2q w = Some j) -> queues (upd q j h') es.
  Proof.
    intros [A B C D] Hj O H. split; [rewrite length_upd; exact A|exact B| |].
    - apply Forall_forall. intros h Hh. apply (In_nth _ _ []) in Hh as (i & Hi & <-). rewrite length_upd in Hi. rewrite Base.nth_upd by lia. destruct (Nat.eqb j i) eqn:X; [exact O|]. rewrite Forall_forall in C. apply C, nth_In, Hi.
    - intros i p w. rewrite Base.nth_upd by lia. destruct (Nat.eqb_spec j i) as [<-|X]; [apply H|apply D].
  Qed.
  Lemma par_push_loop MV v q es : In v (fst G) -> queues q es -> qinv G s (MV ++ [v]) (seen MV v []) (qall q) (elook es) ->
    wp (forM (outs (snd G) v) (fun x '(q, e) =>
              match sdget (al_weights g) (ekey v x) with
              | None => Raise KeyError
              | Some vw =>
                match sdget v2q x with
                | None => Raise KeyError
                | Some j => qj <- bh_insert (nth j q []) (e_val vw) x ;; Ret (upd q j qj, upd e j (keep_cheaper (nth j e []) x vw))
                end
              end) (q, es))
      (fun '(q', es') => queues q' es' /\ qinv G s (MV ++ [v]) (all (MV ++ [v])) (qall q') (elook es') /\ (length (qall q') <= length (qall q) + N G)%nat).
  Proof.
    intros Hv Bq Q0. eapply wp_mono; [apply (wp_forM _ _ (outs (snd G) v) _ (fun pre '(q', es') => queues q' es' /\ qinv G s (MV ++ [v]) (seen MV v pre) (qall q') (elook es') /\ length (qall q') = (length (qall q) + length pre)%nat))|].
    - intros pre w post (q1, e1) El (B1 & Q1 & L1). assert (Hw : is_edge G v w) by (apply outs_In; rewrite El; apply in_elt). destruct (edge_cost G UD v w Hw) as (c & Hc). rewrite (CR v w c Hc). destruct (HV w) as (j & Hj & Ej); [apply (ok_in _ OK v w Hw)|]. rewrite Ej.
      assert (Bj : bh_ok (nth j q1 [])). { assert (X := qs_ok _ _ B1). rewrite Forall_forall in X. apply X, nth_In. rewrite (qs_q _ _ B1). exact Hj. }
      apply wp_bind. eapply wp_mono; [apply BinomialProofs.insert_ok; exact Bj|]. cbn beta. intros h2 (B2 & P2). cbn [wp e_val snd] in *.
      assert (PQ : Permutation ((c, w) :: qall q1) (qall (upd q1 j h2))). { apply Permutation_sym. apply (qall_upd q1 j h2 [] [(c, w)]); [rewrite (qs_q _ _ B1); exact Hj|]. cbn [app]. apply Permutation_sym, P2. }
      split; [|split].
      + assert (B3 : queues (upd q1 j h2) e1). { apply queues_upd; [exact B1|exact Hj|exact B2|]. intros p x Hx. eapply Permutation_in in Hx; [|apply Permutation_sym, P2]. destruct Hx as [[= <- <-]|Hx]; [exact Ej|apply (qs_home _ _ B1 _ _ _ Hx)]. }
        destruct B3 as [X1 X2 X3 X4]. split; auto. rewrite length_upd. exact X2.
      + eapply qinv_perm; [exact PQ| |apply (loop_step G OK s MV v pre _ _ w c Q1 Hc)]. intros x. unfold elook. rewrite Ej. destruct (SE x w) as [->|Nx].
        * rewrite Ej, Base.nth_upd by (rewrite (qs_e _ _ B1); exact Hj). rewrite Nat.eqb_refl, keep_get, String.eqb_refl. reflexivity.
        * destruct (sdget v2q x) as [i|]; [|reflexivity]. rewrite Base.nth_upd by (rewrite (qs_e _ _ B1); exact Hj). destruct (Nat.eqb_spec j i) as [<-|]; [|reflexivity]. rewrite keep_get. destruct (SE x w); [contradiction|reflexivity].
      + rewrite <- (Permutation_length PQ). cbn [length]. rewrite app_length. cbn [length]. lia.
    - split; [exact Bq|]. split; [exact Q0|]. cbn [length]. lia.
    - intros (q', e') (B & Q & L). split; [exact B|]. split; [apply (loop_done G s MV v _ _ Q)|]. rewrite L. assert (X : (length (outs (snd G) v) <= N G)%nat); [|lia]. apply NoDup_incl_length; [apply outs_nodup, (ok_e _ OK)|]. intros y Hy. apply outs_In in Hy. apply (ok_in _ OK v y Hy).
  Qed.
  Lemma popped q es : queues q es -> exists vs, forM q (fun qi acc => x <- find_min qi ;; Ret (acc ++ [x])) [] = Ret vs /\
    match fold_left (fun v x => if node_before x v then x else v) vs None with
    | None => qall q = []
    | Some m => exists j mi h', (j < n)%nat /\ sdget v2q (b_data m) = Some j /\ bh_find_minimum (nth j q []) = Ret (m, mi) /\ bh_delete_minimum (nth j q []) = Ret h' /\
        queues (upd q j h') es /\ Permutation (qall q) ((b_key m, b_data m) :: qall (upd q j h')) /\ forall y, In y (qall q) -> b_key m <= fst y
    end.
  Proof.
    intros B. destruct (find_min_all q (qs_ok _ _ B) []) as (vs & E1 & F2). exists vs. split; [exact E1|]. assert (X := best_ok vs None). destruct (fold_left _ vs None) as [m|].
    - destruct X as ([X|X] & L); [discriminate|]. destruct (Forall2_nth_in _ _ _ _ [] F2 X) as (j & Hj & mi & Ef & Nh & Lh). assert (Bj : bh_ok (nth j q [])). { assert (Y := qs_ok _ _ B). rewrite Forall_forall in Y. apply Y, nth_In. exact Hj. }
      destruct (delete_min_ok _ Bj Nh) as (m' & mi' & h' & Ef' & Ed & Bh' & P & _). rewrite Ef in Ef'. injection Ef' as <- <-. rewrite (qs_q _ _ B) in Hj. exists j, mi, h'. split; [exact Hj|].
      assert (Hm : sdget v2q (b_data m) = Some j). { apply (qs_home _ _ B j (b_key m)). eapply Permutation_in; [apply Permutation_sym, P|left; reflexivity]. }
      split; [exact Hm|]. split; [exact Ef|]. split; [exact Ed|]. split.
      + apply queues_upd; [exact B|exact Hj|exact Bh'|]. intros p w Hw. apply (qs_home _ _ B j p). eapply Permutation_in; [apply Permutation_sym, P|right; exact Hw].
      + split; [apply Permutation_sym; apply (qall_upd q j h' [(b_key m, b_data m)] []); [rewrite (qs_q _ _ B); exact Hj|apply Permutation_sym, P]|].
        intros (p, w) Hy. apply qall_in in Hy as (i & Hi & Hy). destruct (Forall2_in_nth _ _ _ i [] F2 Hi) as ([m2|] & Hb & Hp); [|cbn in Hp; rewrite Hp in Hy; destruct Hy]. destruct Hp as (? & _ & _ & L2). specialize (L2 _ Hy). specialize (L m2 (or_intror Hb)). cbn [fst] in *. lia.
    - destruct X as (_ & X). unfold qall. clear - F2 X. induction F2 as [|h o q vs H F IH]; [reflexivity|]. cbn [flat_map]. assert (o = None) by (apply X; left; reflexivity). subst o. cbn in H. subst h. cbn [bh_elems flat_map app]. apply IH. intros o Ho. apply X. right. exact Ho.
  Qed.
End Par.
Lemma qall_repeat n : qall (repeat [] n) = [].
Proof. induction n as [|n IH]; [reflexivity|]. cbn. exact IH. Qed.
Lemma prim_par_run n g G s E : (0 < n)%nat -> al_rep g G -> dg_ok G -> undirected G -> crep (al_weights g) G -> (exists rest, fst G = s :: rest) -> component (priced G) s E -> wp (prim_parallel_al n g) (good g G s E).
Proof.
  intros Hn R OK UD CR VS HE. unfold prim_parallel_al. rewrite (rep_v _ _ R). set (v2q := snd (fold_left _ (fst G) _)).
  assert (HV : forall x, In x (fst G) -> exists j, (j < n)%nat /\ sdget v2q x = Some j) by (intros x Hx; apply v2q_ok; auto).
  assert (Hs0 : In s (fst G)) by (destruct VS as (r & ->); left; reflexivity).
  assert (HV0 : sdget v2q s = Some 0%nat). { destruct VS as (rest & EV). assert (Ns : ~ In s rest) by (assert (ND := ok_v _ OK); rewrite EV in ND; inversion ND; assumption). unfold v2q. rewrite EV. cbn [fold_left]. rewrite Nat.mod_0_l by lia.
    assert (X : forall l i d, ~ In s l -> sdget (snd (fold_left (fun '(i, d) v => (S i, sdset d v (i mod n)%nat)) l (i, d))) s = sdget d s). { clear. induction l as [|v l IH]; intros i d H; [reflexivity|]. cbn [fold_left]. rewrite IH by (intros X; apply H; right; exact X). apply sget_set_ne. intros ->. apply H. left. reflexivity. }
    rewrite X by exact Ns. apply sget_set_eq. }
  clearbody v2q. destruct (VS) as (rest & EV). rewrite EV. rewrite <- EV. fold (N G). apply wp_bind. eapply wp_mono; [apply BinomialProofs.insert_ok; split; [exact I|constructor]|]. cbn beta. intros q0 (B0 & P0).
  assert (LR : forall A (d : A), length (repeat d n) = n) by (intros; apply repeat_length). assert (EMP : forall (i : nat), nth i (repeat ([] : bheap string) n) [] = []). { intros i. clear. revert i. induction n as [|n' IH]; intros [|i]; try reflexivity. apply IH. }
  apply (wp_while _ _ (fun '(q, es, MV, W, g1) => g1 = g /\ queues n v2q q es /\ exists T, W = both_ways T /\ tinv G s E MV T /\ qinv G s MV (all MV) (qall q) (elook v2q es) /\ (MV = [] -> qall q <> []))
      (fun '(q, _, MV, _, _) => (length (qall q) + N G * (N G - length MV))%nat)).
  - intros ((((q & es) & MV) & W) & g1) (-> & Bq & T & -> & TI & QI & NE). destruct (popped n Hn v2q q es Bq) as (vs & Ev & Hp). rewrite Ev. cbn [bind]. destruct (fold_left _ vs None) as [m|].
    + destruct Hp as (j & mi & h' & Hj & Ej & Ef & Ed & Bq' & P & L). rewrite Ej, Ef. cbn [bind]. rewrite Ed. cbn [bind]. set (v := b_data m) in *. set (p := b_key m) in *.
      assert (Hv : In v (fst G)). { destruct (q_Q _ _ _ _ _ _ QI p v) as [X|[(u & _ & X)|(_ & ->)]]; [eapply Permutation_in; [apply Permutation_sym, P|left; reflexivity]|apply (t_in _ _ _ _ _ TI), X|apply (ok_in _ OK u v (cost_edge _ _ _ _ X))|exact Hs0]. }
      rewrite (mst_hasattr_ord G OK MV v Hv). destruct (mem_spec v MV) as [Mv|Mv]; cbn [negb].
      * cbn [wp]. split; [|rewrite (Permutation_length P); cbn [length]; lia]. split; [reflexivity|]. split; [exact Bq'|]. exists T. split; [reflexivity|]. split; [exact TI|]. split; [apply (qinv_skip G s MV _ _ p v _ QI Mv P)|]. intros ->. destruct Mv.
      * destruct (pop_add G OK UD s E HE MV T _ _ p v _ TI QI Mv P L) as (Q1 & J). assert (EL : elook v2q es v = sdget (nth j es []) v) by (unfold elook; rewrite Ej; reflexivity). rewrite EL in J.
        assert (Step : exists T', mst_join g MV (both_ways T) v (sdget (nth j es []) v) = Ret (g, MV ++ [v], both_ways T') /\ tinv G s E (MV ++ [v]) T').
        { destruct (sdget (nth j es []) v) as [x|].
          - destruct J as (u & c & -> & Hu & Hc & NL & TI'). exists (T ++ [(u, v, c)]). split; [|exact TI']. apply (mst_join_ok g G R OK); [exact UD|apply (t_in _ _ _ _ _ TI)|exact Hu|exact Mv|exact Hc|exact NL|]. intros a b d X. apply (t_T _ _ _ _ _ TI a b d X).
          - destruct J as (-> & -> & ->). exists []. split; [apply (mst_join_first g G R OK); assumption|apply (tinv_first G s Hs0 E)]. }
        destruct Step as (T' & EJ & TI'). rewrite EJ. cbn [bind]. rewrite (rep_neighbors g G v R OK Hv). cbn [bind]. apply wp_bind. eapply wp_mono; [apply (par_push_loop n Hn g G OK UD CR s v2q HV MV v (upd q j h') es Hv Bq' Q1)|]. intros (q2 & e2) (B2 & Q2 & L2). cbn [wp]. split.
        -- split; [reflexivity|]. split; [exact B2|]. exists T'. split; [reflexivity|]. split; [exact TI'|]. split; [exact Q2|]. intros X. destruct MV; discriminate.
        -- assert (SZ := size_step G MV v (t_nd _ _ _ _ _ TI') (t_in _ _ _ _ _ TI')). rewrite (Permutation_length P). cbn [length]. lia.
    + cbn [wp]. apply (finish g G UD s E HE MV T (elook v2q es)); [exact TI|intros X; apply (NE X Hp)|]. rewrite Hp in QI. exact QI.
  - assert (PQ : Permutation (qall (upd (repeat [] n) 0 q0)) [(0, s)]). { assert (X := qall_upd (repeat [] n) 0 q0 [] [(0, s)]). rewrite qall_repeat, LR in X. apply (X Hn). rewrite EMP. cbn [app bh_elems flat_map]. apply Permutation_sym, P0. }
    split; [reflexivity|]. split.
    + split; [rewrite length_upd; apply LR|apply LR| |].
      * apply Forall_forall. intros h Hh. apply (In_nth _ _ []) in Hh as (i & Hi & <-). rewrite length_upd, LR in Hi. rewrite Base.nth_upd by (rewrite LR; lia). destruct (Nat.eqb 0 i); [exact B0|]. rewrite EMP. split; [exact I|constructor].
      * intros i p w. rewrite Base.nth_upd by (rewrite LR; lia). destruct (Nat.eqb_spec 0 i) as [<-|X]; [|rewrite EMP; intros []]. intros Hw. eapply Permutation_in in Hw; [|apply Permutation_sym, P0]. destruct Hw as [[= <- <-]|[]]. exact HV0.
    + exists []. split; [reflexivity|]. split; [apply tinv_init|]. split; [eapply qinv_perm; [apply Permutation_sym, PQ| |apply qinv_init]|].
      * intros x. unfold elook. destruct (sdget v2q x) as [i|]; [|reflexivity]. assert (X : nth i (repeat ([] : list (string * edge)) n) [] = []). { clear. revert i. induction n as [|n' IH]; intros [|i]; try reflexivity. apply IH. } rewrite X. reflexivity.
      * intros _ X. rewrite X in PQ. apply Permutation_nil in PQ. discriminate.
  - assert (PQ : Permutation (qall (upd (repeat [] n) 0 q0)) [(0, s)]). { assert (X := qall_upd (repeat [] n) 0 q0 [] [(0, s)]). rewrite qall_repeat, LR in X. apply (X Hn). rewrite EMP. cbn [app bh_elems flat_map]. apply Permutation_sym, P0. }
    rewrite (Permutation_length PQ). cbn [length]. lia.
Qed.
