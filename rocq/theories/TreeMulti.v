(** Queries on the trees built by the balanced classes; Multiset histories. *)
From Coq Require Import Sorting.Sorted.
From Verif Require Import Base TreeModel TreeModel2 TreeSpec TreeProofs TreeRotate TreeBst TreeTrav TreeQuery TreeLca TreeDel TreeHist TreeBalSpec TreeAvl TreeAvl2 TreeSim TreeTreap TreeSplay TreeRb.

Section View.
  Context {D : Type}.
  Notation info := (info D). Notation node := (node D). Notation mem := (mem D). Notation bst := (bst D). Notation bt := (bt D). Notation ctx := (ctx D).
  (** the tree read off the array (for concrete cases) *)
  Fixpoint read (f : nat) (m : mem) (i : option Z) : bt :=
    match f, i with
    | S f, Some j => match aget m j with Ret (Some n) => N (read f m (n_left n)) j (n_inf n) (read f m (n_right n)) | _ => E end
    | _, _ => E
    end.
  Definition shown (b : bst) (l : list (Z * option D)) : Prop := exists v, in_order (b_mem b) (b_root b) = Ret v /\ shows v l.
  Lemma view (b : bst) T h : default b -> grown b T -> cont T h -> T <> E -> sorted_map (entries T) h /\ finds b (entries T) /\ shown b (entries T).
  Proof.
    intros HD G C NE. assert (W := tree_wtree _ _ _ (g_at _ _ G)). split; [apply cont_map; exact C|]. split; [apply wfinds; [exact HD|exact W|apply C|exact NE]|]. exists (infos T). split; [apply in_order_w; [exact W|exact NE]|]. apply (ents_okeys T (proj1 C)).
  Qed.
  Lemma least_iff (P P' : Z -> Prop) ks r : (forall k, P k <-> P' k) -> least P ks r -> least P' ks r.
  Proof. destruct r as [z|]; intros HP; cbn [least]; [intros (A & B & C); split; [exact A|]; split; [apply HP; exact B|]; intros k Hk HP'; apply C; [exact Hk|apply HP; exact HP']|intros A k Hk HP'; apply (A k Hk), HP, HP']. Qed.
  Lemma bounds_view_at (b : bst) T key : default b -> tree_at (b_mem b) (b_root b) T -> ordered (infos T) ->
    exists lo hi, lower_bound b key = Ret lo /\ upper_bound b key = Ret hi /\ least (fun k => key <= k) (map fst (entries T)) lo /\ least (fun k => key < k) (map fst (entries T)) hi.
  Proof.
    intros HD GT C. destruct (bounds_ok b T key HD GT C) as [EL EU]. assert (LL := first_above_least false key _ C). assert (LU := first_above_least true key _ C). unfold entries.
    exists (first_above false key (infos T)), (first_above true key (infos T)). split; [exact EL|]. split; [exact EU|]. split; (eapply least_iff; [|eassumption]); intros k; cbn [above]; lia.
  Qed.
  Lemma bounds_view (b : bst) T h key : default b -> grown b T -> cont T h ->
    exists lo hi, lower_bound b key = Ret lo /\ upper_bound b key = Ret hi /\ least (fun k => key <= k) (map fst (entries T)) lo /\ least (fun k => key < k) (map fst (entries T)) hi.
  Proof. intros HD G C. apply bounds_view_at; [exact HD|apply (g_at _ _ G)|apply C]. Qed.
  (** select and rank when the stored sizes are right *)
  Lemma os_view_at (b : bst) T : default b -> tree_at (b_mem b) (b_root b) T -> a_num (b_arr b) = nodes T -> ordered (infos T) -> T <> E -> sized T -> let l := entries T in
    (forall i, 1 <= i <= len l -> exists n e, select b i = Ret (Some n) /\ nth_error l (Z.to_nat (i - 1)) = Some e /\ n_key n = Some (fst e) /\ k_data (n_inf n) = snd e /\ rank b (fst e) = Ret (Some i)) /\
    (forall i, i < 1 \/ len l < i -> select b i = Raise ValueError) /\
    (forall x, ~ In x (map fst l) -> rank b x = Ret None).
  Proof.
    intros HD GT EN HO NE HS l. unfold l.
    assert (RK := fun x => rank_ok b T x HD GT HO HS NE). assert (SG := proj1 (entries_ok (infos T) HO)).
    rewrite len_entries. split; [|split].
    - intros i Hi. destruct (select_ok b T i HD GT HO HS EN Hi) as (n & x & ES & EX & EI). exists n, (entry x). split; [exact ES|]. unfold nthi in EI.
      assert (EE : nth_error (entries T) (Z.to_nat (i - 1)) = Some (entry x)) by (unfold entries; apply map_nth_error; exact EI). split; [exact EE|].
      assert (Hx : kis (fun _ => True) x). { destruct HO as [HO _]. rewrite Forall_forall in HO. apply HO. eapply nth_error_In. exact EI. } unfold kis in Hx. destruct (k_key x) as [kx|] eqn:Ekx; [|destruct Hx].
      split; [unfold n_key; rewrite EX; unfold entry; cbn [fst]; rewrite Ekx; reflexivity|]. split; [rewrite EX; reflexivity|]. rewrite RK. rewrite existsb_entries, count_le_entries by exact HO. fold (entries T).
      assert (EM : existsb (fun k => k =? fst (entry x)) (map fst (entries T)) = true). { apply existsb_exists. exists (fst (entry x)). split; [apply in_map; eapply nth_error_In; exact EE|apply Z.eqb_refl]. } rewrite EM. f_equal. f_equal.
      rewrite (count_sorted (map fst (entries T)) (Z.to_nat (i - 1)) (fst (entry x))); [lia|exact SG|apply map_nth_error; exact EE].
    - intros i Hi. unfold select. destruct (Z.ltb_spec (i - 1) 0); [reflexivity|]. destruct (Z.leb_spec (a_num (b_arr b)) (i - 1)); [reflexivity|lia].
    - intros x Hx. rewrite RK, existsb_entries by exact HO. fold (entries T). replace (existsb (fun k => k =? x) (map fst (entries T))) with false; [reflexivity|]. symmetry. apply not_true_is_false. intros X. apply existsb_exists in X as (k & Hk & Ek). apply Z.eqb_eq in Ek. subst k. contradiction.
  Qed.
  Lemma os_view (b : bst) T : default b -> grown b T -> ordered (infos T) -> T <> E -> sized T -> let l := entries T in
    (forall i, 1 <= i <= len l -> exists n e, select b i = Ret (Some n) /\ nth_error l (Z.to_nat (i - 1)) = Some e /\ n_key n = Some (fst e) /\ k_data (n_inf n) = snd e /\ rank b (fst e) = Ret (Some i)) /\
    (forall i, i < 1 \/ len l < i -> select b i = Raise ValueError) /\
    (forall x, ~ In x (map fst l) -> rank b x = Ret None).
  Proof. intros HD GG. apply os_view_at; [exact HD|apply (g_at _ _ GG)|rewrite (g_nodes _ _ GG); apply (g_num _ _ GG)]. Qed.
  Lemma sizes_sized (T : bt) : sizes_stored T -> sized T.
  Proof. induction T as [|l IHl i x r IHr]; cbn; [auto|]. intros (A & B & C). cbn [nodes] in A. auto. Qed.
  (** AVLTree.delete of an absent key *)
  Lemma avl_delete_absent (b : bst) T h k : default b -> grown b T -> cont T h -> T <> E -> last_data h k = None -> avl_delete b k = Ret (b, true).
  Proof.
    intros HD G C NE HL. unfold avl_delete, delete_info. destruct (search_ok b T k HD (g_at _ _ G) (proj1 C) NE) as (c & S & _ & E1 & ET & _ & HS). rewrite E1. cbn [bind].
    destruct HS as [-> |(l & i & x & r & -> & Ek)]; [reflexivity|]. exfalso. assert (X : last_data h k = Some (k_data x)); [|congruence]. apply (proj2 C). unfold ents. rewrite ET, infos_plug. cbn [infos]. rewrite !map_app, !in_app_iff. right. left. right. left. unfold ent. rewrite Ek. reflexivity.
  Qed.
End View.
