From Verif Require Import Base ArraysProofs TreeModel TreeSpec TreeProofs TreeBst TreeHist TreeHist2 TreeHist3 TreeMixSpec TreeMix2 TreeTreap CppArrayModel CppArrayProofs CppTreeModel CppTreeSpec CppTreeSim CppTreeProofs CppTreeHist CppTreeHist2 PrintProofs7 CppPrintModel2 CppPrintSpec.

Section Trees.
  Context {K D : Type} (rk : K -> Z).
  Notation dm := (dm rk). Notation dt := (dt rk). Notation RB := (RB rk).
  Lemma zn_snoc {A} (a : list (option A)) i : 0 <= i < len a -> firstn (Z.to_nat (i + 1)) a = firstn (Z.to_nat i) a ++ [zn None a i].
  Proof. intros H. unfold len in H. replace (Z.to_nat (i + 1)) with (S (Z.to_nat i)) by lia. rewrite (firstn_S_nth _ None) by lia. reflexivity. Qed.
  Lemma c_printed_ok (b : ctree K D) : -1 <= cr_last (ct_arr b) < len (ct_mem b) -> c_tree_printed b = Ret (map (option_map c_row) (firstn (Z.to_nat (cr_last (ct_arr b) + 1)) (ct_mem b))).
  Proof.
    intros H. unfold c_tree_printed. match goal with |- ?m = Ret ?x => assert (W : wp m (fun r => r = x)) end; [|apply wp_ex in W; destruct W as (r & E & ->); exact E].
    apply wp_for_range with (I := fun i out => out = map (option_map c_row) (firstn (Z.to_nat i) (ct_mem b))).
    - reflexivity.
    - intros i out Hi ->. rewrite (raw_lget (ct_mem b) i (zn None (ct_mem b) i)) by (try lia; apply lget_ok; lia). cbn [bind wp]. rewrite zn_snoc by lia. rewrite map_app. reflexivity.
    - intros s ->. rewrite Z.max_r by lia. reflexivity.
  Qed.
  Lemma row_at (t : cmem K D) n i c : cget t (Some i) = Ret c -> i <= n -> 0 <= i /\ nth_error (map (option_map c_row) (firstn (Z.to_nat (n + 1)) t)) (Z.to_nat i) = Some (Some (c_row c)).
  Proof.
    intros H Hn. unfold cget, rawget in H. destruct ((i <? 0) || (len t <=? i)) eqn:B; [discriminate|]. apply orb_false_iff in B as [B1 B2]. apply Z.ltb_ge in B1. split; [exact B1|]. destruct (nth_error t (Z.to_nat i)) as [x|] eqn:E; [|discriminate]. cbn [bind] in H. destruct x; [|discriminate]. injection H as ->.
    rewrite nth_error_map, firstn_nth by lia. rewrite E. reflexivity.
  Qed.
  Lemma ctable_ok (t : cmem K D) (n : Z) T : forall p, rep (dm t) T p -> (forall i, In i (idx T) -> 0 <= i <= n) -> (forall x, In x (infos T) -> k_key x <> None) ->
    exists e, ctable_shows (map (option_map c_row) (firstn (Z.to_nat (n + 1)) t)) (root T) e /\ named_entries rk e = entries T.
  Proof.
    induction T as [|l IHl i x r IHr]; intros p P B NK; [exists []; split; [constructor|reflexivity]|]. cbn [rep idx root] in *. destruct P as (C & Pl & Pr).
    destruct (IHl (Some i) Pl) as (el & Sl & El); [intros j Hj; apply B, in_app_iff; auto|intros y Hy; apply NK, in_app_iff; auto|].
    destruct (IHr (Some i) Pr) as (er & Sr & Er); [intros j Hj; apply B, in_app_iff; right; right; auto|intros y Hy; apply NK, in_app_iff; right; right; auto|].
    destruct (get_back rk t i _ C) as (c & Ec & Ed). destruct c as [y lf rg pr]. unfold CppTreeSim.dn in Ed. cbn [cn_inf cn_left cn_right cn_parent] in Ed. injection Ed as Ex1 Ex2 Ex3 Ex4. subst lf rg pr.
    assert (Hk : k_key x <> None) by (apply NK, in_app_iff; right; left; reflexivity). rewrite Ex1 in Hk. unfold di in Hk. cbn [k_key] in Hk. destruct (ck_key y) as [k|] eqn:Ek; [|contradiction].
    destruct (row_at t n i _ Ec) as [Hi Er0]; [apply B, in_app_iff; right; left; reflexivity|].
    exists (el ++ (k, ck_data y) :: er). split.
    - eapply cshows_row; [exact Hi|rewrite Er0; unfold c_row, cn_key; cbn [cn_inf cn_left cn_right]; rewrite Ek; reflexivity|exact Sl|exact Sr].
    - unfold named_entries, entries in *. cbn [infos]. rewrite !map_app. cbn [map fst snd]. rewrite El, Er. f_equal. f_equal. unfold entry. rewrite Ex1. unfold di. cbn [k_key k_data]. rewrite Ek. reflexivity.
  Qed.
  Lemma cheap_ok (t : cmem K D) (n : Z) T : forall p q, rep (dm t) T p -> (forall i, In i (idx T) -> 0 <= i <= n) -> heap q T ->
    ctable_heap (map (option_map c_row) (firstn (Z.to_nat (n + 1)) t)) (root T) q.
  Proof.
    induction T as [|l IHl i x r IHr]; intros p q P B HH; [constructor|]. cbn [rep idx root] in *. destruct P as (C & Pl & Pr). cbn [heap] in HH. destruct HH as (pr0 & Hp & Hq & HL & HR).
    destruct (get_back rk t i _ C) as (c & Ec & Ed). destruct c as [y lf rg pr]. unfold CppTreeSim.dn in Ed. cbn [cn_inf cn_left cn_right cn_parent] in Ed. injection Ed as Ex1 Ex2 Ex3 Ex4. subst lf rg pr.
    destruct (row_at t n i _ Ec) as [Hi Er0]; [apply B, in_app_iff; right; left; reflexivity|]. rewrite Ex1 in Hp. unfold di in Hp. cbn [k_prio] in Hp.
    eapply cheap_row with (p := pr0); [exact Hi|rewrite Er0; unfold c_row, cn_key; cbn [cn_inf cn_left cn_right]; rewrite Hp; reflexivity|destruct q; [exact Hq|exact I]| |].
    - apply (IHl (Some i)); [exact Pl|intros j Hj; apply B, in_app_iff; auto|exact HL].
    - apply (IHr (Some i)); [exact Pr|intros j Hj; apply B, in_app_iff; right; right; auto|exact HR].
  Qed.
  Lemma choled_print (c : ctree K D) (b : bst D) T : RB c b -> holed b T -> ordered (infos T) ->
    exists tbl e, c_tree_printed c = Ret tbl /\ ctable_shows tbl (ct_root c) e /\ named_entries rk e = entries T /\ (heap None T -> ctable_heap tbl (ct_root c) None).
  Proof.
    intros [-> _] H (O & _). destruct H as [(P & ND & ER) H1 H2 H3 H4 H5].
    change (b_mem (dt c)) with (dm (ct_mem c)) in *. change (b_root (dt c)) with (ct_root c) in *. change (a_last (b_arr (dt c))) with (cr_last (ct_arr c)) in *. rewrite dm_lenz in H3.
    assert (B : forall i, In i (idx T) -> 0 <= i <= cr_last (ct_arr c)) by (intros i Hi; apply H4 in Hi; lia).
    destruct (ctable_ok (ct_mem c) (cr_last (ct_arr c)) T None P B) as (e & S & E).
    { intros x Hx E. rewrite Forall_forall in O. specialize (O x Hx). unfold kis in O. rewrite E in O. exact O. }
    eexists. exists e. split; [apply c_printed_ok; lia|]. rewrite ER. split; [exact S|]. split; [exact E|]. intros HH. apply (cheap_ok _ _ T None None); assumption.
  Qed.
End Trees.
