From Verif Require Import Base ArraysModel ArraysProofs StackQueueModel StackQueueSpec StackQueueProofs CppArrayModel CppArraySpec CppArrayProofs PrintModel PrintProofs CppPrintModel.

Lemma list_ext_nth T : forall l1 l2 : list T, (forall k, nth_error l1 k = nth_error l2 k) -> l1 = l2.
Proof.
  induction l1 as [|a l1 IH]; intros [|b l2] H; [reflexivity|discriminate (H 0%nat)|discriminate (H 0%nat)|]. pose proof (H 0%nat) as H0. cbn in H0. injection H0 as ->. f_equal. apply IH. intros k. exact (H (S k)).
Qed.

Section Arrays.
  Context {A : Type}.
  Lemma c_str_ok (b : list (option A)) n last : 0 <= (if last =? -1 then n else last + 1) <= len b -> c_str b n last = Ret (firstn (Z.to_nat (if last =? -1 then n else last + 1)) b).
  Proof.
    intros H. unfold c_str. set (e := if last =? -1 then n else last + 1) in *. cbv zeta.
    match goal with |- ?m = Ret ?x => assert (W : wp m (fun r => r = x)) end; [|apply wp_ex in W; destruct W as (r & E & ->); exact E].
    apply wp_for_range with (I := fun i out => out = firstn (Z.to_nat i) b).
    - reflexivity.
    - intros i out Hi ->. rewrite (raw_lget b i (zn None b i)) by (try lia; apply lget_ok; lia). cbn [bind wp]. symmetry. apply firstn_snoc_zn. lia.
    - intros s ->. replace (Z.max 0 e) with e by lia. reflexivity.
  Qed.
  Lemma doda_shown (d : doda A) : doda_inv d -> cdoda_printed (emb d) = Ret (if d_last d =? -1 then d_data d else firstn (Z.to_nat (d_last d + 1)) (d_data d)).
  Proof.
    intros I. pose proof (di_last _ I) as Hl. pose proof (di_size _ I) as Hs. unfold cdoda_printed. cbn [emb c_buf c_asize c_last]. rewrite c_str_ok by (destruct (d_last d =? -1); lia).
    destruct (d_last d =? -1); [|reflexivity]. f_equal. apply firstn_all2. unfold len in Hs. lia.
  Qed.
  Lemma cs_run_state ops : forall d (l : list A), as_rel d l ->
    run_hist cs_step (map stack_cpp ops) (emb d) = (emb (fst (run_hist as_step ops d)), snd (run_hist (stack_spec (OErr IndexError)) ops l)).
  Proof.
    induction ops as [|o ops IH]; intros d l R; [reflexivity|]. cbn [map run_hist].
    assert (E := cs_step_eq d l o R). destruct (as_step_sim d l o R) as [E1 R1]. destruct (as_step d o) as [d1 r]. rewrite E. cbn [fst snd] in *.
    destruct (stack_spec (OErr IndexError) l o) as [l1 r1]. cbn [fst snd] in *. subst r1. rewrite (IH d1 l1 R1). destruct (run_hist as_step ops d1), (run_hist (stack_spec (OErr IndexError)) ops l1). reflexivity.
  Qed.
End Arrays.
