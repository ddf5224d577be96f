(** Printing binary trees. *)
From Verif Require Import Base ArraysProofs TreeModel TreeSpec TreeProofs TreeBst TreeHist TreeHist2 TreeHist3 TreeMix2 PrintModel2 PrintSpec2.

Lemma firstn_nth {A} (l : list A) : forall n i, (i < n)%nat -> nth_error (firstn n l) i = nth_error l i.
Proof. induction l as [|x l IH]; intros [|n] [|i] H; try lia; try reflexivity. cbn. apply IH. lia. Qed.

Section BT.
  Context {D R : Type} (row : node D -> R).
  Lemma bt_printed_ok (b : bst D) : -1 <= a_last (b_arr b) < len (b_mem b) -> bt_printed row b = Ret (map (option_map row) (firstn (Z.to_nat (a_last (b_arr b) + 1)) (b_mem b))).
  Proof.
    intros H. unfold bt_printed. set (m := b_mem b) in *. set (n := a_last (b_arr b)) in *.
    match goal with |- ?m = Ret ?x => assert (W : wp m (fun r => r = x)) end; [|apply wp_ex in W; destruct W as (r & E & ->); exact E].
    apply wp_for_range with (I := fun i out => out = map (option_map row) (firstn (Z.to_nat i) m) ++ repeat None (Z.to_nat (n + 1 - i))).
    - cbn. f_equal. lia.
    - intros i out Hi ->. rewrite (aget_ok _ None) by lia. cbn [bind].
      assert (E : firstn (Z.to_nat (i + 1)) m = firstn (Z.to_nat i) m ++ [zn None m i]) by (replace (Z.to_nat (i + 1)) with (S (Z.to_nat i)) by lia; rewrite (firstn_S_nth _ None) by (unfold len in H; lia); reflexivity).
      assert (ER : Z.to_nat (n + 1 - i) = S (Z.to_nat (n + 1 - (i + 1)))) by lia. rewrite E, map_app. cbn [map]. assert (LM : length (map (option_map row) (firstn (Z.to_nat i) m)) = Z.to_nat i) by (rewrite map_length, firstn_length; unfold len in H; lia).
      destruct (zn None m i) as [v|] eqn:Ev; cbn [option_map].
      + apply wp_aset; [rewrite len_app, len_repeat; unfold len; rewrite LM; lia|]. unfold zupd.
        replace (Z.to_nat i) with (length (map (option_map row) (firstn (Z.to_nat i) m))) at 2 by exact LM. rewrite upd_repeat_frontier by lia. do 2 f_equal. lia.
      + apply wp_ret. rewrite ER. cbn [repeat]. rewrite <- app_assoc. reflexivity.
    - intros out ->. rewrite Z.max_r by lia. replace (Z.to_nat (n + 1 - (n + 1))) with 0%nat by lia. cbn [repeat]. rewrite app_nil_r. reflexivity.
  Qed.
  Context (read : R -> option Z * option Z * option D * option Z) (RD : forall n, read (row n) = bt_row n).
  Lemma table_ok (m : mem D) (n : Z) T : forall p, rep m T p -> (forall i, In i (idx T) -> 0 <= i <= n) -> (forall x, In x (infos T) -> k_key x <> None) ->
    table_shows read (map (option_map row) (firstn (Z.to_nat (n + 1)) m)) (root T) (entries T).
  Proof.
    induction T as [|l IHl i x r IHr]; intros p P B NK; [constructor|]. cbn [rep idx root] in *. destruct P as (C & Pl & Pr). unfold entries. cbn [infos]. rewrite map_app. cbn [map].
    assert (Bi : 0 <= i <= n) by (apply B, in_app_iff; right; left; reflexivity). destruct (k_key x) as [k|] eqn:Ek; [|exfalso; apply (NK x); [apply in_app_iff; right; left; reflexivity|exact Ek]].
    unfold entry at 2. rewrite Ek. apply shows_row with (x := row (mknode x (root l) (root r) p)) (l := root l) (r := root r).
    - lia.
    - unfold cell in C. unfold aget in C. destruct ((i <? 0) || (len m <=? i)); [discriminate|]. destruct (nth_error m (Z.to_nat i)) as [c|] eqn:E; [|discriminate]. rewrite nth_error_map, firstn_nth by lia. rewrite E. destruct c; [injection C as ->; reflexivity|discriminate].
    - rewrite RD. unfold bt_row, n_key. cbn. rewrite Ek. reflexivity.
    - apply (IHl (Some i)); [exact Pl|intros j Hj; apply B, in_app_iff; auto|intros y Hy; apply NK, in_app_iff; auto].
    - apply (IHr (Some i)); [exact Pr|intros j Hj; apply B, in_app_iff; right; right; auto|intros y Hy; apply NK, in_app_iff; right; right; auto].
  Qed.
  Lemma holed_print (b : bst D) T : holed b T -> ordered (infos T) -> exists tbl, bt_printed row b = Ret tbl /\ table_shows read tbl (b_root b) (entries T).
  Proof.
    intros H (O & _). destruct H as [(P & ND & ER) H1 H2 H3 H4 H5]. eexists. split; [apply bt_printed_ok; lia|]. rewrite ER. apply (table_ok (b_mem b) _ T None P); [intros i Hi; apply H4 in Hi; lia|]. intros x Hx E. rewrite Forall_forall in O. specialize (O x Hx). unfold kis in O. rewrite E in O. exact O.
  Qed.
End BT.
