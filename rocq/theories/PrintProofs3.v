(** Printing a d-ary heap. *)
From Verif Require Import Base SortSpec HeapModel HeapProofs PrintModel.
From Coq Require Import Sorted.

Lemma zrange_sorted lo hi : Sorted Z.lt (zrange lo hi).
Proof.
  destruct (Z_le_gt_dec hi lo) as [H|H]; [rewrite zrange_nil by exact H; constructor|]. remember (Z.to_nat (hi - lo)) as n eqn:En. revert lo H En. induction n as [|n IH]; intros lo H En; [lia|].
  rewrite zrange_cons by lia. destruct (Z_le_gt_dec hi (lo + 1)) as [G|G]; [rewrite zrange_nil by exact G; repeat constructor|]. constructor; [apply IH; lia|]. rewrite zrange_cons by lia. constructor. lia.
Qed.
Lemma combine_seq_nth {A} (l : list A) : forall s i, nth_error (combine (seq s (length l)) l) i = match nth_error l i with Some x => Some ((s + i)%nat, x) | None => None end.
Proof. induction l as [|x l IH]; intros s [|i]; cbn [length seq combine nth_error]; try reflexivity; [rewrite Nat.add_0_r; reflexivity|]. rewrite IH. destruct (nth_error l i); [|reflexivity]. do 2 f_equal. lia. Qed.

Section HeapPrint.
  Context {K D : Type} (comp : K -> K -> bool) (leK : K -> K -> Prop) (DC : decides comp leK) (d : Z) (Hd : 1 <= d).
  Lemma heap_nodes_len (h : list (K * D)) : length (heap_nodes d h) = length h.
  Proof. unfold heap_nodes. rewrite map_length, combine_length, seq_length. lia. Qed.
  Lemma heap_print_nth (h : list (K * D)) i : nth_error (heap_printed (heap_nodes d h)) i =
    match nth_error h i with Some kd => Some (kd, zrange (d * Z.of_nat i + 1) (Z.min (d * Z.of_nat i + d + 1) (len h))) | None => None end.
  Proof.
    unfold heap_printed. rewrite nth_error_map. unfold len. rewrite heap_nodes_len. unfold heap_nodes. rewrite nth_error_map, combine_seq_nth. destruct (nth_error h i) as [kd|] eqn:E; [|reflexivity]. cbn [option_map fst snd Nat.add]. do 2 f_equal.
    destruct (Z.leb_spec (d * Z.of_nat i + 1) (Z.of_nat (length h) - 1)); [|rewrite zrange_nil by lia; reflexivity]. destruct (Z.leb_spec (d * Z.of_nat i + d) (Z.of_nat (length h) - 1)); f_equal; lia.
  Qed.
  Lemma heap_print_fst (h : list (K * D)) : map fst (heap_printed (heap_nodes d h)) = h.
  Proof.
  assert (X : forall (l m : list (K * D)), (forall i, nth_error l i = nth_error m i) -> l = m). { induction l as [|x l IH]; intros [|y m] H; [reflexivity|specialize (H 0%nat); discriminate|specialize (H 0%nat); discriminate|]. f_equal; [specialize (H 0%nat); cbn in H; congruence|]. apply IH. intros i. apply (H (S i)). }
    apply X. intros i. rewrite nth_error_map, heap_print_nth. destruct (nth_error h i); reflexivity.
  Qed.
  Lemma heap_print_children (h : list (K * D)) i kd cs : nth_error (heap_printed (heap_nodes d h)) i = Some (kd, cs) ->
    nth_error h i = Some kd /\ Sorted Z.lt cs /\ forall j, In j cs <-> 1 <= j < len h /\ (j - 1) / d = Z.of_nat i.
  Proof.
    rewrite heap_print_nth. destruct (nth_error h i) as [x|]; [|discriminate]. intros [= -> <-]. split; [reflexivity|]. split; [apply zrange_sorted|]. intros j. rewrite zrange_in. change ((j - 1) / d) with (par d j). rewrite (par_iff d Hd). nia.
  Qed.
  Lemma heap_print_order (h : list (K * D)) i kd cs j kd' : hok leK d h -> nth_error (heap_printed (heap_nodes d h)) i = Some (kd, cs) -> In (Z.of_nat j) cs -> nth_error h j = Some kd' -> leK (fst kd) (fst kd').
  Proof.
    intros H E I Ej. apply heap_print_children in E as (Ei & _ & C). apply C in I as (B & P). assert (X := H kd (Z.of_nat j) B). change ((Z.of_nat j - 1) / d) with (par d (Z.of_nat j)) in P. rewrite P in X. specialize (X ltac:(lia)). unfold le, zn in X. rewrite !Nat2Z.id in X. rewrite (nth_error_nth _ _ _ Ei), (nth_error_nth _ _ _ Ej) in X. exact X.
  Qed.
End HeapPrint.
