(** Property C39 (DHeap, hence BinaryHeap d=2 and TernaryHeap d=3). [comp] is self._comp on keys: [<=] for "min",
    [>=] for "max"; [le] is the priority order it decides (SortSpec.decides). *)
From Verif Require Import Base ArraysModel ArraysProofs DodaPacked SortSpec HeapModel HeapProofs.

(** After building from any elements and any history of calls: extract on a non-empty heap returns an element whose key
    comes first, and removes exactly that element; on an empty heap it raises IndexError; insert adds exactly the element. *)
Theorem C39_dheap_priority_order : forall (K D : Type) (comp : K -> K -> bool) (le : K -> K -> Prop) (d : Z) (elements : list (K * D)) (ops : list (heap_op K D)),
  decides comp le -> 1 <= d ->
  exists h0 h, heap_build comp d elements = Ret h0 /\ Permutation elements h0 /\ heap_run comp d ops h0 = Ret h /\
    (h = [] -> heap_extract comp d h = Raise IndexError /\ heap_is_empty h = true) /\
    (h <> [] -> heap_is_empty h = false /\
       exists x h', heap_extract comp d h = Ret (x, h') /\ Permutation h (x :: h') /\ (forall y, In y h -> le (fst x) (fst y)) /\ nth_error h 0 = Some x) /\
    (forall k v, exists h', heap_insert comp d h k v = Ret h' /\ Permutation ((k, v) :: h) h').
Proof.
  intros K D comp le d elements ops DC Hd.
  pose proof (build_hok comp le DC d Hd elements) as W. apply wp_ex in W. destruct W as (h0 & E0 & P0 & O0).
  pose proof (run_hok comp le DC d Hd ops h0 O0) as W. apply wp_ex in W. destruct W as (h & E & O).
  exists h0, h. split; [exact E0|]. split; [exact P0|]. split; [exact E|]. split; [|split].
  - intros ->. split; reflexivity.
  - intros Hne. split; [destruct h; [contradiction|]; unfold heap_is_empty, len; simpl length; destruct (Z.eqb_spec (Z.of_nat (S (length h)) - 1) (-1)); [lia|reflexivity]|].
    pose proof (extract_hok comp le DC d Hd h Hne O) as W. apply wp_ex in W. destruct W as ([x h'] & Ex & P & M & _).
    exists x, h'. split; [exact Ex|]. split; [exact P|]. split; [exact M|].
    destruct h as [|y h]; [contradiction|]. simpl. revert Ex. unfold heap_extract. destruct (_ =? _); [discriminate|].
    rewrite (aget_ok _ y) by (unfold len; simpl; lia). cbn [bind]. destruct (SortModel.swap _ _ _); cbn [bind]; try discriminate.
    destruct (heapify _ _ _ _); cbn [bind]; try discriminate. intros Ex. injection Ex as <- _. reflexivity.
  - intros k v. pose proof (insert_hok comp le DC d Hd h k v O) as W. apply wp_ex in W. destruct W as (h' & Ei & Pi & _). eauto.
Qed.
Print Assumptions C39_dheap_priority_order.
Example C39_case : decides Z.leb Z.le /\ decides Z.geb Z.ge.
Proof.
  split; split; intros x y; rewrite ?Z.leb_le, ?Z.leb_gt, ?Z.geb_leb, ?Z.leb_le, ?Z.leb_gt; try lia; intros; lia.
Qed.
Example C39_case_run : exists h, heap_build Z.leb 3 [(5, 0); (2, 1); (8, 2); (2, 3); (9, 4); (1, 5)] = Ret h /\
  (' (x, h1) <- heap_extract Z.leb 3 h ;; h2 <- heap_insert Z.leb 3 h1 0 7 ;; ' (y, h3) <- heap_extract Z.leb 3 h2 ;; Ret (x, y)) = Ret ((1, 5), (0, 7)).
Proof. eexists. split; vm_compute; reflexivity. Qed.

(** The DynamicOneDimensionalArray underneath, used with append and delete of the last position only, is that sequence:
    no hole ever appears and index i holds element i. *)
Theorem C39_heap_storage : forall (A : Type) (d : doda A) (l : list A), packed d l ->
  (forall i x, nth_error l i = Some x -> doda_get d (Z.of_nat i) = Ret (Some x)) /\
  (forall x, exists d', doda_append d x = Ret d' /\ packed d' (l ++ [x])) /\
  (forall l' x, l = l' ++ [x] -> exists d', doda_delete d (len l') = Ret d' /\ packed d' l').
Proof.
  intros A d l P. split; [intros; eapply packed_get; eauto|]. split; [intros; apply packed_append; exact P|].
  intros l' x ->. apply (packed_pop _ _ x). exact P.
Qed.
Print Assumptions C39_heap_storage.
Example C39_storage_case : packed (doda_new_list [4; 7; 9] 1 4) [4; 7; 9] /\ packed (doda_new_size 0 1 4 : doda Z) [].
Proof. split; [apply packed_list; lia|apply packed_empty; lia]. Qed.
