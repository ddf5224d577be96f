(** Properties C141 and C142: printing a SparseTable and a OneDimensionalSegmentTree. *)
From Coq Require Import Strings.String Permutation Sorted.
From Verif Require Import Base RangeModel RangeSpec SparseProofs RangeProps RangeProps2 IntervalModel NodeModel PrintModel4 PrintSpec3 PrintProofs8 PrintProofs11.
Import List.
Open Scope list_scope.

(** C141. For any array of numbers and any combiner as in C47 that maps whole numbers to whole numbers, the table that str shows has a row for each element
    and a cell for each power of two up to the size: the fold of that many (truncated) values from there on, and None where fewer are left. *)
Theorem C141_sparse_table_cells : forall (V : Type) (func : combiner V) (op : V -> V -> V) (int_of : V -> V) (a : list V),
  combines func op -> (forall v, int_of (int_of v) = int_of v) -> (forall x y, int_of (op (int_of x) (int_of y)) = op (int_of x) (int_of y)) -> a <> [] ->
  sparse_new func int_of a = Ret (sparse_rows op (map int_of a)).
Proof.
  intros V func op coe a CB Hi Hc Ha. assert (d : V) by (destruct a; [contradiction|assumption]). rewrite <- (sparse_new_coerced func op coe a CB Hi).
  apply (sparse_exact func op CB coe (map coe a) d); [|destruct a; [contradiction|discriminate]].
  intros l r v. unfold rf, range_of. set (x := firstn _ _).
  assert (F : Forall (fun v => coe v = v) x).
  { apply Forall_forall. intros y Hy. assert (Hy' : In y (map coe a)).
    { rewrite <- (firstn_skipn (Z.to_nat l) (map coe a)). apply in_or_app. right. rewrite <- (firstn_skipn (Z.to_nat (r - l + 1)) (skipn _ _)). apply in_or_app. left. exact Hy. }
    apply in_map_iff in Hy'. destruct Hy' as (z & <- & _). apply Hi. }
  destruct x as [|y x]; [discriminate|]. cbn [fold1]. intros [= <-]. inversion F; subst. apply (fold_closed op coe Hc Hi); assumption.
Qed.
Print Assumptions C141_sparse_table_cells.
(** C141. The text of a table over ints (any table of ints): rows of numbers and Nones, each row a str in the list. *)
Theorem C141_sparse_table_text : forall (func : combiner Z) (op : Z -> Z -> Z) (a : list Z), combines func op -> a <> [] ->
  exists t, sparse_new func (fun v => v) a = Ret t /\ rows_text (sparse_rows op a) (sparse_str t).
Proof.
  intros func op a CB Ha. pose proof (C141_sparse_table_cells Z func op (fun v => v) a CB ltac:(reflexivity) ltac:(reflexivity) Ha) as E. rewrite map_id in E.
  eexists. split; [exact E|]. apply sparse_text_ok.
Qed.
Print Assumptions C141_sparse_table_text.
(** the text is determined by the rows and, for a fixed shape, determines them: a number has one decimal notation *)
Theorem C141_decimal_determined : forall z z' t t', decimal_of z t -> decimal_of z' t' -> t = t' -> z = z'.
Proof.
  intros z z' t t' (ds & -> & N & F & _ & V) (ds' & -> & N' & F' & _ & V') E. destruct ds as [|c ds]; [contradiction|]. destruct ds' as [|c' ds']; [contradiction|].
  inversion F; subst. inversion F'; subst. destruct (Z.ltb_spec z 0), (Z.ltb_spec z' 0); cbn [app] in E.
  - injection E as -> ->. lia.
  - injection E as <- _. lia.
  - injection E as -> _. lia.
  - injection E as -> ->. lia.
Qed.
Print Assumptions C141_decimal_determined.
Example C141_case : sparse_new py_minimum (fun v => v) [4; 6; 1] = Ret [[Some 4; Some 4]; [Some 6; Some 1]; [Some 1; None]] /\
  sparse_str [[Some (-40); Some 7]; [Some 1; None]] = lit "['[-40, 7]', '[1, None]']" /\ combines py_minimum Z.min.
Proof. repeat apply conj; [vm_compute; reflexivity|vm_compute; reflexivity|apply C47_library_combiners]. Qed.

(** C142. For any non-empty list of segments (coordinates in units of 1/one), str of a OneDimensionalSegmentTree shows the tree: the leaves cut the line at the
    sorted end points, every row but the last is the child of one row, and each row lists, in the order given, exactly the segments that belong there. *)
Theorem C142_segment_tree_print : forall (one : Z) (segs : list (Z * Z)), 0 < one -> segs <> [] ->
  exists rows, ist_printed one segs = Ret rows /\ shown_tree one segs rows.
Proof. exact print_tree_ok. Qed.
Print Assumptions C142_segment_tree_print.
(** Without segments printing raises IndexError. *)
Theorem C142_empty_print : forall one, ist_printed one [] = Raise IndexError.
Proof. reflexivity. Qed.
Print Assumptions C142_empty_print.
Example C142_case : ist_printed 1 [(3, 1)] = Ret
  [(None, IK false 0 1 false, None, None); (None, IK true 1 1 true, Some [(1, 3)], None); (None, IK false 1 3 false, None, None); (None, IK true 3 3 true, None, None);
   (Some 0, IK false 0 1 true, None, Some 1); (Some 2, IK false 1 3 true, Some [(1, 3)], Some 3); (Some 4, IK false 0 3 true, None, Some 5);
   (None, IK false 3 4 false, None, None); (Some (-3), IK false 0 4 false, None, Some (-2))].
Proof. vm_compute. reflexivity. Qed.
