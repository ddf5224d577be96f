(** DisjointSetForest over histories. *)
From Coq Require Import Relations.
From Verif Require Import Base DsfModel DsfSpec DsfProofs.

Lemma forM_snoc {B S} (l : list B) (x : B) (body : B -> S -> res S) s : forM (l ++ [x]) body s = (s' <- forM l body s ;; body x s').
Proof.
  revert s. induction l as [|b l IH]; intros s; simpl; [destruct (body x s); reflexivity|]. destruct (body b s); simpl; auto.
Qed.

Section H.
  Context {K : Type} (eqb : K -> K -> bool) (ES : forall x y, reflect (x = y) (eqb x y)).
  Notation dsf := (list (K * (K * Z))).

  Lemma conn_refl us x : @connected K us x x. Proof. apply rst_refl. Qed.
  Lemma conn_sym us x y : @connected K us x y -> connected us y x. Proof. apply rst_sym. Qed.
  Lemma conn_trans us x y z : @connected K us x y -> connected us y z -> connected us x z. Proof. apply rst_trans. Qed.
  Lemma conn_mono us e x y : @connected K us x y -> connected (e :: us) x y.
  Proof. induction 1; [apply rst_step; right; assumption|apply rst_refl|apply rst_sym; assumption|eapply rst_trans; eauto]. Qed.
  Lemma conn_add us a b x y : @connected K ((a, b) :: us) x y <-> connected us x y \/ (connected us x a /\ connected us b y) \/ (connected us x b /\ connected us a y).
  Proof.
    split.
    - induction 1 as [x y [E|H]|x|x y _ IH|x y z _ IH1 _ IH2].
      + injection E as -> ->. right. left. split; apply conn_refl.
      + left. apply rst_step. exact H.
      + left. apply conn_refl.
      + destruct IH as [H|[[H1 H2]|[H1 H2]]]; [left|right; right|right; left]; repeat split; apply conn_sym; assumption.
      + destruct IH1 as [H|[[H1 H2]|[H1 H2]]], IH2 as [G|[[G1 G2]|[G1 G2]]];
        (left; solve [eauto using conn_trans, conn_sym]) || (right; left; solve [split; eauto using conn_trans, conn_sym]) || (right; right; solve [split; eauto using conn_trans, conn_sym]).
    - assert (E : connected ((a, b) :: us) a b) by (apply rst_step; left; reflexivity).
      intros [H|[[H1 H2]|[H1 H2]]]; [apply conn_mono, H| |].
      + eapply conn_trans; [apply conn_mono, H1|]. eapply conn_trans; [exact E|apply conn_mono, H2].
      + eapply conn_trans; [apply conn_mono, H1|]. eapply conn_trans; [apply conn_sym, E|apply conn_mono, H2].
  Qed.
  Lemma conn_dom us (ks : list K) x y : (forall a b, In (a, b) us -> In a ks /\ In b ks) -> connected us x y -> x = y \/ (In x ks /\ In y ks).
  Proof.
    intros H. induction 1 as [x y Hxy|x|x y _ IH|x y z _ IH1 _ IH2]; [right; apply H, Hxy|left; reflexivity| |].
    - destruct IH as [->|[]]; auto.
    - destruct IH1 as [->|[]], IH2 as [->|[]]; auto.
  Qed.

  Notation rt := (@rt K). Notation inv := (inv eqb).
  Record good (ks : list K) (us : list (K * K)) (t : dsf) (P : K -> list K) : Prop :=
    { g_inv : inv t P; g_keys : map fst t = ks; g_dom : forall a b, In (a, b) us -> In a ks /\ In b ks;
      g_conn : forall x y, In x ks -> In y ks -> (rt P x = rt P y <-> connected us x y) }.
  (** depth bound, as long as make_root is not used *)
  Definition shallow (ks : list K) (P : K -> list K) : Prop :=
    forall u, In u ks -> 2 ^ (len (P u) - 1) <= cnt eqb P ks (rt P u).

  Lemma step_make ks us t P k : good ks us t P -> ~ In k ks ->
    exists P', good (ks ++ [k]) us (make_set eqb t k) P' /\ (shallow ks P -> shallow (ks ++ [k]) P').
  Proof.
    intros [I E Dm C] Hk. subst ks. destruct (make_set_ok eqb ES t P k I Hk) as [I' K']. set (P' := fun x => if eqb x k then [k] else P x) in *.
    assert (Hne : forall u, In u (map fst t) -> P' u = P u) by (intros u Hu; unfold P'; destruct (ES u k) as [->|]; [contradiction|reflexivity]).
    assert (HPk : P' k = [k]) by (unfold P'; destruct (ES k k); [reflexivity|congruence]).
    assert (Hnk : forall u, In u (map fst t) -> rt P u <> k).
    { intros u Hu Eq. destruct (rt_root eqb ES t P u I Hu) as (_ & _ & D'). rewrite Eq in D'. contradiction. }
    assert (Hc : forall u, In u (map fst t) -> ~ connected us k u /\ ~ connected us u k).
    { intros u Hu. split; intros Hcc; (destruct (conn_dom us (map fst t) _ _ Dm Hcc) as [->|[A B]]; contradiction). }
    exists P'. split.
    - split; [exact I'|exact K'| |].
      + intros a b Hab. destruct (Dm a b Hab). split; apply in_or_app; left; assumption.
      + intros x y Hx Hy. unfold DsfProofs.rt. apply in_app_iff in Hx, Hy. destruct Hx as [Hx|[<- | []]], Hy as [Hy|[<- | []]]; rewrite ?HPk, ?Hne by assumption.
        * apply C; assumption.
        * simpl. split; [intros Eq; exfalso; apply (Hnk x Hx Eq)|intros Hcc; exfalso; apply (proj2 (Hc x Hx)), Hcc].
        * simpl. split; [intros Eq; exfalso; apply (Hnk y Hy); symmetry; exact Eq|intros Hcc; exfalso; apply (proj1 (Hc y Hy)), Hcc].
        * split; intros; [apply conn_refl|reflexivity].
    - intros S u Hu. apply in_app_iff in Hu. destruct Hu as [Hu|[<- | []]].
      + unfold DsfProofs.rt. rewrite Hne by exact Hu. fold (rt P u). specialize (S u Hu).
        assert (cnt eqb P (map fst t) (rt P u) <= cnt eqb P' (map fst t ++ [k]) (rt P u)); [|lia].
        unfold cnt. rewrite filter_app. unfold len. rewrite app_length.
        rewrite (filter_ext_in' (fun x => inb eqb (rt P u) (P' x)) (fun x => inb eqb (rt P u) (P x))) by (intros x Hx; rewrite Hne by exact Hx; reflexivity). lia.
      + unfold DsfProofs.rt. rewrite HPk. simpl last. change (2 ^ (len [k] - 1)) with 1. unfold cnt. rewrite filter_app. simpl. rewrite HPk.
        unfold inb at 2. simpl. destruct (ES k k); [|congruence]. simpl. unfold len. rewrite app_length. simpl. lia.
  Qed.

  Lemma step_union ks us t P a b : good ks us t P -> In a ks -> In b ks ->
    exists t' P', dsf_union eqb t a b = Ret t' /\ good ks ((a, b) :: us) t' P' /\ (shallow ks P -> shallow ks P').
  Proof.
    intros [I E Dm C] Ha Hb. subst ks. destruct (union_ok eqb ES t P a b I Ha Hb) as (t' & P' & Eu & I' & K' & Hc).
    exists t', P'. split; [exact Eu|].
    assert (Dm' : forall x y, In (x, y) ((a, b) :: us) -> In x (map fst t) /\ In y (map fst t)).
    { intros x y [Exy|Hxy]; [injection Exy as -> ->; auto|apply Dm, Hxy]. }
    destruct Hc as [[Er ->]|(x & y & Hxy & Ex & Ey & Dx & Dy & Hle & Hor & ->)].
    - split; [|auto]. split; auto. intros u v Hu Hv. rewrite (C u v Hu Hv), conn_add. split; [auto|].
      assert (Hab : connected us a b) by (apply C; assumption).
      intros [H|[[H1 H2]|[H1 H2]]]; eauto using conn_trans, conn_sym.
    - split.
      + split; auto. intros u v Hu Hv. rewrite (attach_rt eqb t P x y u I Hu), (attach_rt eqb t P x y v I Hv). rewrite conn_add.
        rewrite <- (C u v Hu Hv), <- (C u a Hu Ha), <- (C u b Hu Hb), <- (C b v Hb Hv), <- (C a v Ha Hv).
        destruct (ES (rt P u) y) as [Eu'|Eu'], (ES (rt P v) y) as [Ev'|Ev']; destruct Hor as [[-> ->]|[-> ->]]; split; intros; intuition congruence.
      + intros S u Hu. rewrite (attach_rt eqb t P x y u I Hu).
        assert (HPx : P x = [x]) by (apply (rt_self eqb t P x I Dx Ex)). assert (HPy : P y = [y]) by (apply (rt_self eqb t P y I Dy Ey)).
        assert (Sx : siz eqb t x = Some (cnt eqb P (map fst t) x)) by (apply (i_sz _ _ _ I), Dx).
        assert (Sy : siz eqb t y = Some (cnt eqb P (map fst t) y)) by (apply (i_sz _ _ _ I), Dy).
        destruct (attach_ok eqb ES t P x y _ _ I Dx Dy Hxy Ex Ey Sx Sy) as [I2 K2].
        assert (Hcx : cnt eqb (attach_P eqb P x y) (map fst t) x = cnt eqb P (map fst t) x + cnt eqb P (map fst t) y).
        { pose proof (i_sz _ _ _ I2 x) as Q. rewrite K2 in Q. specialize (Q Dx).
          rewrite (ss_siz eqb ES) in Q by (rewrite (sp_keys eqb ES); exact Dx). destruct (ES x x); [|congruence]. congruence. }
        unfold attach_P at 1. destruct (ES (rt P u) y) as [Eu'|Eu'].
        * specialize (S u Hu). rewrite Eu' in S. rewrite Hcx. unfold len in *. rewrite app_length. simpl.
          assert (Hl : (1 <= length (P u))%nat) by (destruct (P u) eqn:Epu; [pose proof (i_pth _ _ _ I u Hu) as Hp; rewrite Epu in Hp; inversion Hp|simpl; lia]).
          replace (Z.of_nat (length (P u) + 1) - 1) with (Z.succ (Z.of_nat (length (P u)) - 1)) by lia. rewrite Z.pow_succ_r by lia. lia.
        * specialize (S u Hu). destruct (ES (rt P u) x) as [Eux|Eux].
          -- rewrite Eux in *. rewrite Hcx. pose proof (Zle_0_nat (length (filter (fun z => inb eqb y (P z)) (map fst t)))). unfold cnt, len in *. lia.
          -- assert (cnt eqb (attach_P eqb P x y) (map fst t) (rt P u) = cnt eqb P (map fst t) (rt P u)); [|lia].
             destruct (rt_root eqb ES t P u I Hu) as (_ & _ & Dr).
             pose proof (i_sz _ _ _ I2 (rt P u)) as Q. rewrite K2 in Q. specialize (Q Dr).
             rewrite (ss_siz eqb ES) in Q by (rewrite (sp_keys eqb ES); exact Dx). destruct (ES (rt P u) x); [contradiction|].
             rewrite (sp_siz eqb ES) in Q. rewrite (i_sz _ _ _ I _ Dr) in Q. congruence.
  Qed.

  Lemma step_root ks us t P k : good ks us t P -> In k ks ->
    exists t' P', make_root eqb t k = Ret t' /\ good ks us t' P' /\ rt P' k = k.
  Proof.
    intros [I E Dm C] Hk. subst ks. destruct (make_root_ok eqb ES t P k I Hk) as (t' & P' & Er & I' & K' & R').
    exists t', P'. split; [exact Er|]. split.
    - split; auto. intros x y Hx Hy. rewrite <- (C x y Hx Hy), (R' x Hx), (R' y Hy).
      assert (Hnk : forall u, In u (map fst t) -> rt P u = k -> rt P u = rt P k).
      { intros u Hu Eq. destruct (rt_root eqb ES t P u I Hu) as (Ep & _ & _). rewrite Eq in *. unfold DsfProofs.rt. rewrite (rt_self eqb t P k I Hk Ep). reflexivity. }
      destruct (ES (rt P x) (rt P k)) as [Ex|Ex], (ES (rt P y) (rt P k)) as [Ey|Ey]; split; intros Q; try congruence.
      + exfalso. apply Ey. apply Hnk; auto.
      + exfalso. apply Ex. apply Hnk; auto.
    - rewrite (R' k Hk). destruct (ES (rt P k) (rt P k)); congruence.
  Qed.

  Lemma hist_good ops ks us : dsf_hist ops ks us -> exists t P, dsf_run eqb ops [] = Ret t /\ good ks us t P /\ (Forall no_make_root ops -> shallow ks P).
  Proof.
    induction 1 as [|ops ks us k H IH Hk|ops ks us k H IH Hk|ops ks us a b H IH Ha Hb|ops ks us a b H IH Hn|ops ks us k H IH|ops ks us k H IH].
    - exists [], (fun k => [k]). split; [reflexivity|]. split; [split; [apply inv_empty|reflexivity|intros a b []|intros x y []]|]. intros _ u [].
    - destruct IH as (t & P & E & G & S). destruct (step_make ks us t P k G Hk) as (P' & G' & S').
      exists (make_set eqb t k), P'. unfold dsf_run in *. rewrite forM_snoc, E. split; [reflexivity|]. split; [exact G'|].
      intros F. apply Forall_app in F. apply S', S, F.
    - destruct IH as (t & P & E & G & S). exists t, P. unfold dsf_run in *. rewrite forM_snoc, E. cbn [bind dsf_step]. split.
      + unfold make_set. rewrite <- (g_keys _ _ _ _ G) in Hk. destruct (dget_some eqb ES t k Hk) as [v ->]. reflexivity.
      + split; [exact G|]. intros F. apply Forall_app in F. apply S, F.
    - destruct IH as (t & P & E & G & S). destruct (step_union ks us t P a b G Ha Hb) as (t' & P' & Eu & G' & S').
      exists t', P'. unfold dsf_run in *. rewrite forM_snoc, E. cbn [bind dsf_step]. rewrite Eu. split; [reflexivity|]. split; [exact G'|].
      intros F. apply Forall_app in F. apply S', S, F.
    - destruct IH as (t & P & E & G & S). exists t, P. unfold dsf_run in *. rewrite forM_snoc, E. cbn [bind dsf_step].
      rewrite (union_err eqb ES t a b P (g_inv _ _ _ _ G)) by (rewrite (g_keys _ _ _ _ G); exact Hn). split; [reflexivity|]. split; [exact G|].
      intros F. apply Forall_app in F. apply S, F.
    - destruct IH as (t & P & E & G & S). unfold dsf_run in *. rewrite forM_snoc, E. cbn [bind dsf_step].
      destruct (in_dec (Kdec eqb ES) k ks) as [Hk|Hk].
      + destruct (step_root ks us t P k G Hk) as (t' & P' & Er & G' & _). exists t', P'. rewrite Er. split; [reflexivity|]. split; [exact G'|].
        intros F. apply Forall_app in F. destruct F as [_ F]. inversion F as [|? ? F1 _]. destruct F1.
      + exists t, P. rewrite (make_root_err eqb ES) by (rewrite (g_keys _ _ _ _ G); exact Hk). split; [reflexivity|]. split; [exact G|].
        intros F. apply Forall_app in F. apply S, F.
    - destruct IH as (t & P & E & G & S). exists t, P. unfold dsf_run in *. rewrite forM_snoc, E. cbn [bind dsf_step].
      split; [|split; [exact G|intros F; apply Forall_app in F; apply S, F]].
      destruct (in_dec (Kdec eqb ES) k ks) as [Hk|Hk].
      + rewrite (find_root_ok' eqb ES t P k (g_inv _ _ _ _ G)) by (rewrite (g_keys _ _ _ _ G); exact Hk). reflexivity.
      + rewrite (find_root_err eqb ES) by (rewrite (g_keys _ _ _ _ G); exact Hk). reflexivity.
  Qed.

  Lemma size_counts ks us t P k : good ks us t P -> In k ks -> find_size eqb t k = Ret (cnt eqb P ks (rt P k), t) /\ counts ks (connected us k) (cnt eqb P ks (rt P k)).
  Proof.
    intros [I E Dm C] Hk. subst ks. destruct (rt_root eqb ES t P k I Hk) as (Ep & _ & Dr). split.
    - unfold find_size. rewrite (find_root_ok' eqb ES t P k I Hk). cbn [bind]. rewrite (gs_ok eqb t _ _ (i_sz _ _ _ I _ Dr)). reflexivity.
    - exists (filter (fun x => inb eqb (rt P k) (P x)) (map fst t)). split; [apply NoDup_filter, (i_nd _ _ _ I)|]. split; [|reflexivity].
      intros y. rewrite filter_In. split; intros [Hy Q]; (split; [exact Hy|]).
      + rewrite (in_path_root eqb ES t P y _ I Hy Ep) in Q. destruct (ES (rt P y) (rt P k)) as [Eq|]; [|discriminate]. apply C; auto.
      + rewrite (in_path_root eqb ES t P y _ I Hy Ep). apply C in Q; auto. rewrite Q. destruct (ES (rt P y) (rt P y)); congruence.
  Qed.

  (** ** disjoint_sets *)
  Lemma dset_concat (res : list (K * list K)) r m k : (dget eqb res r = Some m \/ (dget eqb res r = None /\ m = [])) ->
    Permutation (concat (map snd (dset eqb res r (m ++ [k])))) (k :: concat (map snd res)).
  Proof.
    induction res as [|[a w] res IH]; intros H; simpl.
    - destruct H as [H|[_ ->]]; [discriminate|reflexivity].
    - simpl in H. destruct (ES r a) as [->|Hr].
      + destruct H as [H|[H _]]; [injection H as ->|discriminate]. simpl. rewrite <- app_assoc. simpl. symmetry. apply Permutation_middle.
      + simpl. rewrite IH by exact H. symmetry. apply Permutation_middle.
  Qed.
  Lemma dset_in_snd (res : list (K * list K)) r v g : In g (map snd (dset eqb res r v)) -> g = v \/ In g (map snd res).
  Proof.
    induction res as [|[a w] res IH]; simpl; [intuition|]. destruct (ES r a); simpl; [intuition|]. intros [->|H]; [auto|]. destruct (IH H); auto.
  Qed.

  Lemma groups_ok ks us t P : good ks us t P ->
    wp (disjoint_sets eqb t) (fun gs => Permutation (concat gs) ks /\ forall g, In g gs -> g <> [] /\ forall x y, In x g -> (In y g <-> In y ks /\ connected us x y)).
  Proof.
    intros G. pose proof (g_inv _ _ _ _ G) as I. pose proof (g_keys _ _ _ _ G) as Ek. unfold disjoint_sets. apply wp_bind. rewrite Ek.
    pose (Q := fun (pre : list K) '(res, t') => t' = t /\ Permutation (concat (map snd res)) pre /\
      (forall r m, In (r, m) res -> m = filter (fun x => eqb (rt P x) r) pre /\ m <> []) /\ NoDup (map fst res) /\
      (forall x, In x pre -> In (rt P x) (map fst res))).
    assert (L : forall post pre s, (forall x, In x (pre ++ post) -> In x ks) -> Q pre s -> wp (forM post (fun key '(result, t) =>
      ' (parent, t) <- find_root eqb t key ;;
      let members := match dget eqb result parent with Some m => m | None => [] end in
      Ret (dset eqb result parent (members ++ [key]), t)) s) (Q (pre ++ post))).
    { induction post as [|k post IH]; intros pre [res t'] Hin (-> & Pm & Hm & Nd & Hall).
      - cbn [forM wp]. rewrite app_nil_r. exact (conj eq_refl (conj Pm (conj Hm (conj Nd Hall)))).
      - cbn [forM]. apply wp_bind. assert (Hk : In k ks) by (apply Hin, in_or_app; right; left; reflexivity).
        rewrite (find_root_ok' eqb ES t P k I) by (rewrite Ek; exact Hk). cbn [bind wp].
        replace (pre ++ k :: post) with ((pre ++ [k]) ++ post) in * by (rewrite <- app_assoc; reflexivity). apply IH; [exact Hin|].
        destruct (dget eqb res (rt P k)) as [m|] eqn:Eg.
        + assert (Hd : In (rt P k) (map fst res)).
          { destruct (in_dec (Kdec eqb ES) (rt P k) (map fst res)) as [H|H]; [exact H|]. apply (dget_none eqb ES) in H. congruence. }
          assert (Hgi : In (rt P k, m) res).
          { clear -Eg ES. induction res as [|[a w] res IH]; [discriminate|]. simpl in Eg. destruct (ES (rt P k) a) as [->|]; [injection Eg as ->; left; reflexivity|right; apply IH, Eg]. }
          split; [reflexivity|]. split; [|split; [|split]].
          * rewrite dset_concat by (left; exact Eg). rewrite Pm. apply Permutation_cons_append.
          * intros r m' Hr.
            assert (Hc : (r = rt P k /\ m' = m ++ [k]) \/ (r <> rt P k /\ In (r, m') res)).
            { revert Hr Nd. clear -ES Hd. induction res as [|[a w] res IH]; [destruct Hd|]. simpl. destruct (ES (rt P k) a) as [<-|Hne]; simpl.
              - intros [Hr|Hr] Nd; [injection Hr as <- <-; auto|]. right. split; [|auto]. intros ->. inversion Nd; subst. apply H1. apply (in_map fst) in Hr. exact Hr.
              - intros [Hr|Hr] Nd; [injection Hr as <- <-; right; auto|]. inversion Nd; subst. simpl in Hd. destruct Hd as [->|Hd]; [contradiction|].
                destruct (IH Hd Hr H2) as [|[]]; auto. }
            rewrite filter_app. simpl. destruct Hc as [[-> ->]|[Hne Hr']].
            -- destruct (ES (rt P k) (rt P k)); [|congruence]. destruct (Hm _ _ Hgi) as [<- _]. split; [reflexivity|]. destruct m; discriminate.
            -- destruct (ES (rt P k) r) as [<-|]; [contradiction|]. rewrite app_nil_r. apply Hm, Hr'.
          * rewrite (dset_keys eqb ES) by exact Hd. exact Nd.
          * intros x Hx. rewrite (dset_keys eqb ES) by exact Hd. apply in_app_iff in Hx. destruct Hx as [Hx|[<- | []]]; auto.
        + pose proof (proj1 (dget_none eqb ES res (rt P k)) Eg) as Hd.
          split; [reflexivity|]. split; [|split; [|split]].
          * rewrite dset_concat by (right; auto). rewrite Pm. apply Permutation_cons_append.
          * intros r m' Hr. rewrite (dset_new eqb ES) in Hr by exact Hd. rewrite filter_app. simpl. apply in_app_iff in Hr. destruct Hr as [Hr|[Hr|[]]].
            -- destruct (ES (rt P k) r) as [<-|]; [exfalso; apply Hd; apply (in_map fst) in Hr; exact Hr|]. rewrite app_nil_r. apply Hm, Hr.
            -- injection Hr as <- <-. destruct (ES (rt P k) (rt P k)); [|congruence]. simpl. split; [|discriminate].
               rewrite (filter_ext_in' _ (fun _ => false)).
               ++ replace (filter (fun _ : K => false) pre) with (@nil K); [reflexivity|]. clear. induction pre; simpl; auto.
               ++ intros x Hx. destruct (ES (rt P x) (rt P k)) as [Eq|]; [|reflexivity]. exfalso. apply Hd. rewrite <- Eq. apply Hall, Hx.
          * rewrite (dset_new eqb ES) by exact Hd. rewrite map_app. simpl. clear -Nd Hd. induction (map fst res) as [|a l IH]; simpl; [repeat constructor; intros []|].
            inversion Nd; subst. simpl in Hd. constructor; [rewrite in_app_iff; simpl; intuition|]. apply IH; tauto.
          * intros x Hx. rewrite (dset_new eqb ES) by exact Hd. rewrite map_app. apply in_app_iff. apply in_app_iff in Hx. destruct Hx as [Hx|[<- | []]]; [left; auto|right; left; reflexivity]. }
    eapply wp_mono; [apply (L ks [] ([], t))|].
    - intros x Hx. exact Hx.
    - split; [reflexivity|]. split; [constructor|]. split; [intros r m []|]. split; [constructor|intros x []].
    - intros [res t'] (-> & Pm & Hm & Nd & Hall). cbn [wp app] in *. split; [exact Pm|].
      intros g Hg. apply in_map_iff in Hg. destruct Hg as ([r m] & <- & Hr). cbn [snd]. destruct (Hm r m Hr) as [Em Hne]. split; [exact Hne|].
      intros x y Hx. rewrite Em in *. rewrite filter_In in *. destruct Hx as [Hx1 Hx2]. destruct (ES (rt P x) r) as [<-|]; [|discriminate].
      split; intros [Hy Q']; (split; [exact Hy|]).
      + destruct (ES (rt P y) (rt P x)) as [Eq|]; [|discriminate]. apply (g_conn _ _ _ _ G); auto.
      + apply (g_conn _ _ _ _ G) in Q'; auto. rewrite Q'. destruct (ES (rt P y) (rt P y)); congruence.
  Qed.
End H.
