(** Multiset: adds and removes in any order (C70). *)
From Coq Require Import Sorting.Sorted.
From Verif Require Import Base TreeModel TreeModel2 TreeSpec TreeProofs TreeRotate TreeBst TreeTrav TreeQuery TreeLca TreeDel TreeHist TreeBalSpec TreeAvl TreeAvl2 TreeSim TreeTreap TreeSplay TreeRb TreeReins TreeMulti TreeHist2Spec TreeHist2 TreeHist3 TreeMixSpec TreeMix2 TreeMix7 TreeMix8 MultisetSpec MultisetProofs MultisetMixSpec MultisetMix.

(** adds and removes in any order, on a Multiset that starts empty. The removes of a last occurrence are the ones that shrink the tree inside: such a remove spares
    the value that came last and the value just after it, leaves two values, and leaves half of the values that ever came. Then every call returns, the counts are
    those of the calls, and the bounds are the least values above *)
Theorem C70_multiset_mixed_partial : forall (ops : list mop) (s : mmap Z) (fs : list bool), removes_added ops -> m_history absent_key spare_older None (value_calls [] ops) = Some (s, fs) ->
  exists m, ms_history ops = Ret m /\ (forall x, ms_count m x = occurs x (bag ops)) /\ (forall x, ms_contains m x = true <-> In x (bag ops)) /\ ms_len m = len (bag ops) /\
    forall key, exists lo hi, ms_lower_bound m key = Ret lo /\ ms_upper_bound m key = Ret hi /\ least (fun k => key <= k) (bag ops) lo /\ least (fun k => key < k) (bag ops) hi.
Proof.
  intros ops s fs RA HR. destruct (history_mixed ops s fs RA HR) as (m & T & E1 & [G _ _ _ _ _] & HK). exists m. split; [exact E1|]. rewrite history_run in E1. destruct (run_counted ops _ [] m new_counted E1) as (H1 & H2 & H3). cbn [app] in *. split; [exact H1|].
  split; [intros x; unfold ms_contains; rewrite H1, <- occurs_In; lia|]. split; [exact H2|]. intros key. destruct G as [GD GH GO GE GI GU GN]. destruct (bounds_view_at _ T key GD (o_at _ _ GH) GO) as (lo & hi & A & B & C & F). exists lo, hi. split; [exact A|]. split; [exact B|]. rewrite GI in C, F.
  split; [destruct lo as [z|]|destruct hi as [z|]]; cbn [least] in *.
  - destruct C as (C1 & C2 & C3). split; [apply HK; exact C1|]. split; [exact C2|]. intros k Hk. apply C3, HK, Hk.
  - intros k Hk. apply C, HK, Hk.
  - destruct F as (C1 & C2 & C3). split; [apply HK; exact C1|]. split; [exact C2|]. intros k Hk. apply C3, HK, Hk.
  - intros k Hk. apply F, HK, Hk.
Qed.
Print Assumptions C70_multiset_mixed_partial.
(** 4 goes and comes back, 5 goes for good, 2 stays although it is removed once *)
Definition mixed_calls : list mop := [Add 4; Add 2; Add 2; Add 6; Add 5; Add 8; Remove 4; Remove 2; Add 4; Add 7; Remove 5; Add 9; Add 9; Remove 4].
Example C70_mixed_case : removes_added mixed_calls /\ (exists s fs, m_history absent_key spare_older None (value_calls [] mixed_calls) = Some (s, fs)) /\
  exists m, ms_history mixed_calls = Ret m /\ ms_len m = 6 /\ ms_lower_bound m 3 = Ret (Some 6) /\ ms_upper_bound m 9 = Ret None.
Proof.
  split; [|split; [eexists; eexists; vm_compute; reflexivity|eexists; split; [vm_compute; reflexivity|]; repeat apply conj; vm_compute; reflexivity]].
  intros before x after H. unfold mixed_calls in H. repeat (destruct before as [|? before]; [try discriminate; injection H as <- _; cbn; tauto|injection H as <- H]); destruct before; discriminate.
Qed.
