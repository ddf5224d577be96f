(** Proofs: histories of SplayTree inserts and splits. *)
From Coq Require Import Sorting.Sorted Sorting.Permutation.
From Verif Require Import Base TreeModel TreeModel2 TreeModel3 TreeSpec TreeProofs TreeRotate TreeBst TreeTrav TreeQuery TreeLca TreeDel TreeHist TreeBalSpec TreeAvl TreeAvl2 TreeSim TreeTreap TreeSplay TreeReins TreeMulti TreeGap TreeSplaySpec TreeSplit.

Section Split2.
  Context {D : Type}.
  Notation info := (info D). Notation node := (node D). Notation mem := (mem D). Notation bst := (bst D). Notation bt := (bt D). Notation ctx := (ctx D).
  Notation entry := (Z * option D)%type.
  Lemma sorted_insert (l : list entry) k d : StronglySorted Z.lt (map fst l) -> ~ In k (map fst l) -> StronglySorted Z.lt (map fst (upto k l ++ (k, d) :: above k l)).
  Proof.
    induction l as [|[a e] l IH]; intros HS NI; cbn [map fst upto above filter app] in *; [repeat constructor|].
    apply StronglySorted_inv in HS as [HS F]. rewrite Forall_forall in F. assert (NI' : ~ In k (map fst l)) by (intros X; apply NI; right; exact X). specialize (IH HS NI'). cbn [In] in NI.
    destruct (Z.leb_spec a k).
    - replace (k <? a) with false by lia. cbn [app map fst]. constructor; [exact IH|]. apply Forall_forall. intros z Hz. rewrite map_app, in_app_iff in Hz. cbn [map fst In] in Hz.
      destruct Hz as [Hz|[<-|Hz]]; [apply F| lia |apply F]; apply in_map_iff in Hz as (q & Q1 & Q2); apply filter_In in Q2; apply in_map_iff; exists q; tauto.
    - replace (k <? a) with true by lia. fold (upto k l). fold (above k l). assert (UP : upto k l = []).
      { unfold upto. assert (Q : forall q, In q l -> a < fst q) by (intros q Hq; apply F, in_map; exact Hq). clear - Q H. induction l as [|q l IH]; [reflexivity|]. cbn [filter]. assert (Q1 := Q q (or_introl eq_refl)). replace (fst q <=? k) with false by lia. apply IH. intros q' Hq. apply Q. right. exact Hq. }
      rewrite UP in *. cbn [app map fst] in *. apply StronglySorted_inv in IH as [I1 I2]. rewrite Forall_forall in I2. constructor; [constructor; [exact I1|]|].
      + apply Forall_forall. intros z Hz. apply F. apply in_map_iff in Hz as (q & Q1 & Q2). apply filter_In in Q2. apply in_map_iff. exists q. tauto.
      + constructor; [lia|]. apply Forall_forall. exact I2.
  Qed.
  Lemma insert_map (l : list entry) k d : StronglySorted Z.lt (map fst l) -> ~ In k (map fst l) -> sorted_map (upto k l ++ (k, d) :: above k l) (l ++ [(k, d)]).
  Proof.
    intros HS NI. split; [apply sorted_insert; assumption|]. intros z e. rewrite last_nodup.
    - rewrite !in_app_iff. cbn [In]. unfold upto, above. rewrite !filter_In. cbn [fst]. assert (In (z, e) l -> z <> k) by (intros H ->; apply NI; apply in_map_iff; exists (k, e); auto).
      destruct (Z.leb_spec z k), (Z.ltb_spec k z); intuition (try lia; try discriminate).
    - rewrite map_app. apply (Permutation_NoDup (Permutation_cons_append (map fst l) k)). constructor; [exact NI|apply sorted_nodup; exact HS].
  Qed.
  Lemma splayed_sorted (b : bst) l : splayed b l -> StronglySorted Z.lt (map fst l).
  Proof. intros (T & _ & _ & HO & _ & <-). apply (entries_ok _ HO). Qed.
  Lemma last_none (l : list entry) k : ~ In k (map fst l) -> last_data l k = None.
  Proof. induction l as [|[a e] l IH]; cbn [map fst In last_data]; intros H; [reflexivity|]. rewrite IH by tauto. destruct (Z.eqb_spec k a); [exfalso; apply H; left; congruence|reflexivity]. Qed.
  Lemma run_one_ok (b : bst) l o : splayed b l -> valid_one l o -> exists b', run_one b o = Ret b' /\ splayed b' (after_one l o).
  Proof.
    intros HB HV. destruct o as [k d|x|x]; cbn [run_one after_one valid_one] in *.
    - assert (HS := splayed_sorted _ _ HB). apply splayed_q in HB as (T & G & EL). destruct (q_splay_insert b T l k d G (last_none l k HV)) as (b' & T' & E1 & [A B C F] & _ & _). exists b'. split; [exact E1|]. exists T'. split; [exact A|]. split; [exact B|]. split; [apply C|]. split; [exact F|].
      eapply sorted_map_unique; [apply cont_map; exact C|apply insert_map; assumption].
    - destruct (split_ok b l x HB HV) as (b' & o & E1 & S1 & _). rewrite E1. cbn [bind]. exists b'. auto.
    - destruct HV as [HI HN]. destruct (split_ok b l x HB HI) as (b' & o & E1 & _ & _ & _ & S2). rewrite E1. cbn [bind]. exists o. auto.
  Qed.
  Lemma run_ok ops : forall (b : bst) l, splayed b l -> valid l ops -> exists b', run_splay b ops = Ret b' /\ splayed b' (after l ops).
  Proof.
    induction ops as [|o ops IH]; intros b l HB HV; cbn [run_splay valid after] in *; [exists b; auto|]. destruct HV as [V1 V2]. destruct (run_one_ok b l o HB V1) as (b1 & E1 & S1). rewrite E1. cbn [bind]. apply IH; assumption.
  Qed.
  Lemma splayed_view (b : bst) l : splayed b l -> finds b l /\ (exists v, in_order (b_mem b) (b_root b) = Ret v /\ shows v l) /\
    forall key, exists lo hi, lower_bound b key = Ret lo /\ upper_bound b key = Ret hi /\ least (fun k => key <= k) (map fst l) lo /\ least (fun k => key < k) (map fst l) hi.
  Proof.
    intros (T & HD & G & HO & HE & <-). assert (W := tree_wtree _ _ _ (q_at _ _ G)). split; [apply wfinds; assumption|]. split; [exists (infos T); split; [apply in_order_w; assumption|apply (ents_okeys T HO)]|].
    intros key. apply bounds_view_at; [exact HD|apply (q_at _ _ G)|exact HO].
  Qed.
End Split2.
