(** C101-C104: the algorithms of the C++ backend ([backend=Backend.CPP]). The C++ models are in CppModel.v; the Python
    ones they are compared with are those of C15-C20 and C29-C33. *)
From Verif Require Import Base SortModel SortSpec SortProofs SortProofs2 SearchModel SearchSpec SearchProofs
  CppModel CppSpec CppProofs CppQuick CppSearch.

Lemma eff_order A (le : A -> A -> bool) comp : bool_valued comp -> forall x y, eff le comp x y = order_of le comp x y.
Proof. exact (eff_peff le comp). Qed.
Lemma decides_ext A (c c' : A -> A -> bool) (leA : A -> A -> Prop) : (forall x y, c x y = c' x y) -> decides c' leA -> decides c leA.
Proof.
  intros E [D1 D2 D3]. constructor; [| |exact D3]; intros x y H; rewrite E in H; [apply D1|apply D2]; exact H.
Qed.
Lemma opt_lower_ok start : 0 <= range_start start < word -> opt_lower start = Ret (range_start start).
Proof.
  destruct start as [z|]; [|reflexivity]. cbn. intros H. unfold as_size_t. destruct (Z.ltb_spec z 0), (Z.leb_spec word z); try lia. reflexivity.
Qed.
Lemma opt_upper_ok V (a : list V) end_ : 0 <= range_end a end_ < word -> opt_upper (len a) end_ = Ret (range_end a end_).
Proof.
  destruct end_ as [z|]; cbn; intros H; [|rewrite u64_id by exact H; reflexivity].
  unfold as_size_t. destruct (Z.ltb_spec z 0), (Z.leb_spec word z); try lia. reflexivity.
Qed.
Lemma opt_upper_def V (a : list V) end_ : (end_ = None \/ 0 <= range_end a end_) -> range_end a end_ < word -> opt_upper (len a) end_ = Ret (u64 (range_end a end_)).
Proof.
  intros [->|H] Hw; [reflexivity|]. rewrite opt_upper_ok by lia. rewrite u64_id by lia. reflexivity.
Qed.

(** C101. bubble_sort, selection_sort and insertion_sort, for every array, every range inside it and every comparator that
    returns True/False: the range ends up sorted, nothing else changes, and the result is the one of the Python backend. *)
Theorem C101_cpp_bubble_sort_sorts : forall (A : Type) (le : A -> A -> bool) (comp : option (A -> A -> pyobj)) (leA : A -> A -> Prop)
  (a : list (option A)) (start end_ : option Z),
  bool_valued comp -> decides (order_of le comp) leA -> 0 < len a < 2 ^ 63 -> 0 <= range_start start < 2 ^ 63 -> 0 <= range_end a end_ < len a ->
  exists b, cpp_bubble_sort le a start end_ comp = Ret b /\ sorts leA a (range_start start) (range_end a end_) b.
Proof.
  intros A le comp leA a start end_ HB D Hl Hs He. assert (Hw : 2 ^ 63 < word) by (rewrite word_val; lia).
  unfold cpp_bubble_sort. rewrite opt_lower_ok, opt_upper_ok by lia. cbn [bind]. rewrite bubble_same by lia.
  apply wp_ex. apply bubble_ok; try lia. eapply decides_ext; [apply eff_order; exact HB|exact D].
Qed.
Print Assumptions C101_cpp_bubble_sort_sorts.
Theorem C101_cpp_selection_sort_sorts : forall (A : Type) (le : A -> A -> bool) (comp : option (A -> A -> pyobj)) (leA : A -> A -> Prop)
  (a : list (option A)) (start end_ : option Z),
  bool_valued comp -> decides (order_of le comp) leA -> len a < 2 ^ 63 -> 0 <= range_start start < 2 ^ 63 ->
  (end_ = None \/ 0 <= range_end a end_) -> range_end a end_ < len a ->
  exists b, cpp_selection_sort le a start end_ comp = Ret b /\ sorts leA a (range_start start) (range_end a end_) b.
Proof.
  intros A le comp leA a start end_ HB D Hl Hs He He2. assert (Hw : 2 ^ 63 < word) by (rewrite word_val; lia).
  assert (He1 : -1 <= range_end a end_) by (destruct He as [->|]; [cbn; pose proof (len_nonneg _ a); lia|lia]).
  unfold cpp_selection_sort. rewrite opt_lower_ok, opt_upper_def by (first [exact He | lia]). cbn [bind].
  destruct (selection_same le comp (range_start start) (range_end a end_) ltac:(lia) a ltac:(lia) He2) as [->|]; [|lia].
  apply wp_ex. apply selection_ok; try lia. eapply decides_ext; [apply eff_order; exact HB|exact D].
Qed.
Print Assumptions C101_cpp_selection_sort_sorts.
Theorem C101_cpp_insertion_sort_sorts : forall (A : Type) (le : A -> A -> bool) (comp : option (A -> A -> pyobj)) (leA : A -> A -> Prop)
  (a : list (option A)) (start end_ : option Z),
  bool_valued comp -> decides (order_of le comp) leA -> len a < 2 ^ 63 -> 0 <= range_start start < 2 ^ 63 ->
  (end_ = None \/ 0 <= range_end a end_) -> range_end a end_ < len a ->
  exists b, cpp_insertion_sort le a start end_ comp = Ret b /\ sorts leA a (range_start start) (range_end a end_) b.
Proof.
  intros A le comp leA a start end_ HB D Hl Hs He He2. assert (Hw : 2 ^ 63 < word) by (rewrite word_val; lia).
  assert (He1 : -1 <= range_end a end_) by (destruct He as [->|]; [cbn; pose proof (len_nonneg _ a); lia|lia]).
  unfold cpp_insertion_sort. rewrite opt_lower_ok, opt_upper_def by (first [exact He | lia]). cbn [bind].
  destruct (insertion_same le comp (range_start start) (range_end a end_) ltac:(lia) a ltac:(lia) He2 ltac:(lia)) as [->|]; [|lia].
  apply wp_ex. apply insertion_ok; try lia. eapply decides_ext; [apply eff_order; exact HB|exact D].
Qed.
Print Assumptions C101_cpp_insertion_sort_sorts.

Lemma pcomp_ext A (c c' : A -> A -> bool) u v : (forall x y, c x y = c' x y) -> pcomp c u v = pcomp c' u v.
Proof. intros E. destruct u, v; cbn; auto. Qed.
Theorem C101_cpp_python_same : forall (A : Type) (le : A -> A -> bool) (comp : option (A -> A -> pyobj)) (a : list (option A)) (s e : Z),
  bool_valued comp -> 0 < len a < 2 ^ 63 -> 0 <= s < 2 ^ 63 -> 0 <= e < len a ->
  cpp_bubble_sort le a (Some s) (Some e) comp = bubble_sort (order_of le comp) a s e /\
  cpp_selection_sort le a (Some s) (Some e) comp = selection_sort (order_of le comp) a s e /\
  cpp_insertion_sort le a (Some s) (Some e) comp = insertion_sort (order_of le comp) a s e.
Proof.
  intros A le comp a s e HB Hl Hs He. assert (Hw : 2 ^ 63 < word) by (rewrite word_val; lia).
  pose proof (eff_order A le comp HB) as E. assert (Hl0 : opt_lower (Some s) = Ret s) by (apply (opt_lower_ok (Some s)); cbn; lia).
  assert (He0 : opt_upper (len a) (Some e) = Ret e) by (apply (opt_upper_ok _ a (Some e)); cbn; lia).
  unfold cpp_bubble_sort, cpp_selection_sort, cpp_insertion_sort. rewrite Hl0, He0. cbn [bind]. split; [|split].
  - rewrite bubble_same by lia. unfold bubble_sort. apply forM_same with (P := fun _ => True); auto. intros _ b _ _.
    apply forM_same with (P := fun _ => True); auto. intros j c _ _. destruct (aget c j); try reflexivity. cbn [bind].
    destruct (aget c (j + 1)); try reflexivity. cbn [bind]. rewrite (pcomp_ext _ _ _ _ _ E). reflexivity.
  - destruct (selection_same le comp s e ltac:(lia) a ltac:(lia) ltac:(lia)) as [E1|]; [|lia]. rewrite u64_id in E1 by lia. rewrite E1.
    unfold selection_sort. apply forM_same with (P := fun _ => True); auto. intros i b _ _. f_equal.
    apply forM_same with (P := fun _ => True); auto. intros j c _ _. destruct (aget b c); try reflexivity. cbn [bind].
    destruct (aget b j); try reflexivity. cbn [bind]. rewrite (pcomp_ext _ _ _ _ _ E). reflexivity.
  - destruct (insertion_same le comp s e ltac:(lia) a ltac:(lia) ltac:(lia) ltac:(lia)) as [E1|]; [|lia]. rewrite u64_id in E1 by lia. rewrite E1.
    unfold insertion_sort. apply forM_same with (P := fun _ => True); auto. intros i b _ _. unfold gap_insert.
    destruct (aget b i) as [t| |]; try reflexivity. cbn [bind]. f_equal. apply while_same with (P := fun _ => True); auto. intros [c j] _.
    destruct (s + 1 <=? j); [|reflexivity]. destruct (aget c (j - 1)); try reflexivity. cbn [bind]. rewrite (pcomp_ext _ _ _ _ _ E). reflexivity.
Qed.
Print Assumptions C101_cpp_python_same.

(** Sorting an empty array: bubble_sort's [arr_length - 1] and [length - 1] wrap around to 2^64 - 1 and the loop asks for
    cells that do not exist; the Python backend returns the empty array (so do the other two in C++). *)
Theorem C101_cpp_bubble_empty_refuted : forall (A : Type) (le : A -> A -> bool) (comp : option (A -> A -> pyobj)),
  cpp_bubble_sort le [] None None comp = Raise IndexError /\ bubble_sort (order_of le comp) [] 0 (-1) = Ret [] /\
  cpp_selection_sort le [] None None comp = Ret [] /\ cpp_insertion_sort le [] None None comp = Ret [].
Proof.
  intros A le comp. split; [|split; [reflexivity|split; reflexivity]].
  unfold cpp_bubble_sort. cbn [opt_lower opt_upper bind]. unfold cpp_bubble_impl.
  change (u64 (len (@nil (option A)) - 1)) with (word - 1).
  assert (E : zrange 0 (word - 1) = 0 :: zrange (0 + 1) (word - 1)) by (apply zrange_cons; rewrite word_val; lia).
  rewrite E. cbn [forM]. reflexivity.
Qed.
Print Assumptions C101_cpp_bubble_empty_refuted.
(** A comparator that answers 1/0 instead of True/False: Python takes the truth value, C++ takes every answer for False. *)
Theorem C101_cpp_truthy_refuted : let comp x y := PyOther (x <=? y) in
  selection_sort (order_of Z.leb (Some comp)) [Some 1; Some 2] 0 1 = Ret [Some 1; Some 2] /\
  cpp_selection_sort Z.leb [Some 1; Some 2] None None (Some comp) = Ret [Some 2; Some 1] /\
  cpp_bubble_sort Z.leb [Some 1; Some 2] None None (Some comp) = Ret [Some 2; Some 1] /\
  cpp_insertion_sort Z.leb [Some 1; Some 2] None None (Some comp) = Ret [Some 2; Some 1].
Proof. cbv zeta. repeat split; vm_compute; reflexivity. Qed.
Print Assumptions C101_cpp_truthy_refuted.
Definition cdemo : list (option Z) := [Some 9; Some 7; None; Some 3; Some 1; Some 3; Some 0].
Example C101_case :
  cpp_bubble_sort Z.leb cdemo (Some 1) (Some 5) None = Ret [Some 9; Some 1; Some 3; Some 3; Some 7; None; Some 0] /\
  cpp_selection_sort Z.leb cdemo (Some 1) None (Some (fun x y => if y <? x then PyTrue else PyFalse)) =
    Ret [Some 9; Some 7; Some 3; Some 3; Some 1; Some 0; None] /\
  cpp_insertion_sort Z.leb cdemo None None None = Ret [Some 0; Some 1; Some 3; Some 3; Some 7; Some 9; None] /\
  bool_valued (Some (fun x y => if y <? x then PyTrue else PyFalse)) /\ decides (order_of Z.leb (Some (fun x y => if y <? x then PyTrue else PyFalse))) Z.ge.
Proof.
  repeat split; try (vm_compute; reflexivity).
  - intros x y. destruct (y <? x); auto.
  - intros x y. unfold order_of. destruct (Z.ltb_spec y x); cbn; [lia|discriminate].
  - intros x y. unfold order_of. destruct (Z.ltb_spec y x); cbn; [discriminate|lia].
  - intros x y z. lia.
Qed.

(** C102. quick_sort: on a range that starts at index 0 the subtraction [p - 1] wraps around as soon as a pivot ends up at
    index 0, and (0, 2^64 - 1) is pushed as a range to sort. A one-element array never gets sorted, for any number of
    rounds; neither does [2, 1]. The Python backend sorts both. *)
Theorem C102_cpp_quick_sort_refuted : forall (fuel : nat),
  (forall (A : Type) (le : A -> A -> bool) (comp : option (A -> A -> pyobj)) (x : option A) r, cpp_quick_sort le fuel [x] None None comp <> Ret r) /\
  (forall r, cpp_quick_sort Z.leb fuel [Some 2; Some 1] None None None <> Ret r) /\
  quick_sort Z.leb default_pivot [Some 2; Some 1] 0 1 = Ret [Some 1; Some 2].
Proof.
  intros fuel. split; [|split].
  - intros A le comp x r. destruct fuel as [|[|fuel]]; discriminate.
  - intros r. destruct fuel as [|[|fuel]]; vm_compute; discriminate.
  - vm_compute. reflexivity.
Qed.
Print Assumptions C102_cpp_quick_sort_refuted.
(** It sorts every range that starts at index 1 or later, and every range from 0 on whose first cell is already a minimum. *)
Theorem C102_cpp_quick_sort_partial : forall (A : Type) (le : A -> A -> bool) (comp : option (A -> A -> pyobj)) (leA : A -> A -> Prop)
  (a : list (option A)) (start end_ : option Z) (fuel : nat),
  bool_valued comp -> decides (order_of le comp) leA -> len a < 2 ^ 63 ->
  0 <= range_start start -> range_start start <= range_end a end_ -> range_end a end_ < len a ->
  1 <= range_start start \/ (range_start start = 0 /\ 1 <= range_end a end_ /\ first_is_least (order_of le comp) a (range_end a end_)) ->
  2 * len a < Z.of_nat fuel ->
  exists b, cpp_quick_sort le fuel a start end_ comp = Ret b /\ sorts leA a (range_start start) (range_end a end_) b /\
    quick_sort (order_of le comp) default_pivot a (range_start start) (range_end a end_) = Ret b.
Proof.
  intros A le comp leA a start end_ fuel HB D Hl Hs Hse He HF Hfu. assert (Hw : 2 ^ 63 < word) by (rewrite word_val; lia).
  unfold cpp_quick_sort. rewrite opt_lower_ok, opt_upper_ok by lia. cbn [bind].
  pose proof (eff_order A le comp HB) as E. assert (D' : decides (eff le comp) leA) by (eapply decides_ext; [exact E|exact D]).
  assert (HS : safe le comp a (range_start start) (range_end a end_)).
  { destruct HF as [HF|(H1 & H2 & H3)]; [left; exact HF|right]. split; [exact H1|]. split; [exact H2|]. intros i Hi. specialize (H3 i Hi).
    unfold before in H3. destruct (zn None a 0), (zn None a i); cbn; try rewrite E; auto; contradiction. }
  rewrite (cpp_quick_python le comp leA D') by (auto; lia).
  pose proof (quick_ok (eff le comp) leA D' a _ _ Hs Hse He) as W. apply wp_ex in W. destruct W as (b & Eb & Hb).
  exists b. split; [exact Eb|]. split; [exact Hb|]. rewrite <- Eb. unfold quick_sort. apply while_same with (P := fun _ => True); auto.
  intros [c st] _. destruct st as [|hi [|lo st]]; try reflexivity. f_equal. unfold qs_partition.
  destruct (default_pivot lo hi c) as [x| |]; try reflexivity. cbn [bind]. f_equal. apply forM_same with (P := fun _ => True); auto.
  intros j [b' i] _ _. destruct (aget b' j); try reflexivity. cbn [bind]. rewrite (pcomp_ext _ _ _ _ _ E). reflexivity.
Qed.
Print Assumptions C102_cpp_quick_sort_partial.
Example C102_case :
  cpp_quick_sort Z.leb 15 cdemo (Some 1) (Some 5) None = Ret [Some 9; Some 1; Some 3; Some 3; Some 7; None; Some 0] /\
  cpp_quick_sort Z.leb 13 [Some 1; Some 7; None; Some 3; Some 1; Some 2] None None None = Ret [Some 1; Some 1; Some 2; Some 3; Some 7; None] /\
  first_is_least (order_of Z.leb None) [Some 1; Some 7; None; Some 3; Some 1; Some 2] 5.
Proof.
  split; [vm_compute; reflexivity|]. split; [vm_compute; reflexivity|]. intros i Hi.
  assert (i = 1 \/ i = 2 \/ i = 3 \/ i = 4 \/ i = 5) as [->|[->|[->|[->| ->]]]] by lia; vm_compute; auto.
Qed.

(** C103. The searches. linear_search returns the first index of the value in the range. *)
Theorem C103_cpp_linear_search_first : forall (A : Type) (eqb : A -> A -> bool) (a : list (option A)) (v : A) (start end_ : option Z),
  (forall x y, eqb x y = true <-> x = y) -> len a < 2 ^ 63 -> 0 <= range_start start < 2 ^ 63 ->
  (end_ = None \/ 0 <= range_end a end_) -> range_end a end_ < len a ->
  exists r, cpp_linear_search eqb a v start end_ = Ret r /\ first_index (fun i => zn None a i = Some v) (range_start start) (range_end a end_) r.
Proof.
  intros A eqb a v start end_ HE Hl Hs He He2. assert (Hw : 2 ^ 63 < word) by (rewrite word_val; lia).
  assert (He1 : -1 <= range_end a end_) by (destruct He as [->|]; [cbn; pose proof (len_nonneg _ a); lia|lia]).
  unfold cpp_linear_search. rewrite opt_lower_ok, opt_upper_def by (first [exact He | lia]). cbn [bind]. rewrite linear_same by lia.
  apply wp_ex. apply linear_search_ok; auto; lia.
Qed.
Print Assumptions C103_cpp_linear_search_first.
(** binary_search and jump_search find the value exactly when the range holds it, if the range is sorted (empty cells last,
    as the sorts leave them) and the array has fewer than 2^31 cells; jump_search on a non-empty range. *)
Theorem C103_cpp_binary_search_exact : forall (A : Type) (eqb le : A -> A -> bool) (comp : option (A -> A -> pyobj)) (leA : A -> A -> Prop)
  (a : list (option A)) (v : A) (start end_ : option Z),
  (forall x y, eqb x y = true <-> x = y) -> total_order leA -> bool_valued comp -> orders (order_of le comp) leA ->
  len a < 2 ^ 31 -> 0 <= range_start start < 2 ^ 31 -> (end_ = None \/ 0 <= range_end a end_) -> range_end a end_ < len a ->
  sorted_range leA a (range_start start) (range_end a end_) ->
  exists r, cpp_binary_search eqb le a v start end_ comp = Ret r /\ some_index (fun i => zn None a i = Some v) (range_start start) (range_end a end_) r.
Proof.
  intros A eqb le comp leA a v start end_ HE TO HB OR Hl Hs He He2 HA. assert (Hw : 2 ^ 31 < word) by (rewrite word_val; lia).
  assert (He1 : -1 <= range_end a end_) by (destruct He as [->|]; [cbn; pose proof (len_nonneg _ a); lia|lia]).
  unfold cpp_binary_search. rewrite opt_lower_ok, opt_upper_def by (first [exact He | lia]). cbn [bind]. apply wp_ex.
  apply cpp_binary_ok with (leA := leA); auto; try lia. intros x y N. rewrite eff_order by exact HB. apply OR. exact N.
Qed.
Print Assumptions C103_cpp_binary_search_exact.
Theorem C103_cpp_jump_search_exact : forall (A : Type) (eqb le : A -> A -> bool) (comp : option (A -> A -> pyobj)) (leA : A -> A -> Prop)
  (a : list (option A)) (v : A) (start end_ : option Z),
  (forall x y, eqb x y = true <-> x = y) -> total_order leA -> bool_valued comp -> orders (order_of le comp) leA ->
  len a < 2 ^ 31 -> 0 <= range_start start -> range_start start <= range_end a end_ -> range_end a end_ < len a ->
  sorted_range leA a (range_start start) (range_end a end_) ->
  exists r, cpp_jump_search eqb le a v start end_ comp = Ret r /\ some_index (fun i => zn None a i = Some v) (range_start start) (range_end a end_) r.
Proof.
  intros A eqb le comp leA a v start end_ HE TO HB OR Hl Hs Hse He2 HA. assert (Hw : 2 ^ 31 < word) by (rewrite word_val; lia).
  unfold cpp_jump_search. rewrite opt_lower_ok, opt_upper_ok by lia. cbn [bind]. apply wp_ex.
  apply cpp_jump_ok with (leA := leA); auto; try lia. intros x y N. rewrite eff_order by exact HB. apply OR. exact N.
Qed.
Print Assumptions C103_cpp_jump_search_exact.
(** On an empty array linear_search and binary_search answer None; jump_search reads cell 0 and fails. *)
Theorem C103_cpp_jump_search_empty_refuted : forall (A : Type) (eqb le : A -> A -> bool) (comp : option (A -> A -> pyobj)) (v : A),
  cpp_jump_search eqb le [] v None None comp = Raise IndexError /\
  cpp_linear_search eqb [] v None None = Ret None /\ cpp_binary_search eqb le [] v None None comp = Ret None.
Proof. intros. repeat split; reflexivity. Qed.
Print Assumptions C103_cpp_jump_search_empty_refuted.
(** jump_search's two defects of the Python backend (C31, start > 0) are absent here *)
Example C103_case :
  cpp_linear_search Z.eqb [Some 4; None; Some 7; Some 4; Some 7] 7 (Some 1) None = Ret (Some 2) /\
  cpp_binary_search Z.eqb Z.leb [Some 9; Some 1; Some 3; Some 3; Some 8; None; None] 8 (Some 1) None None = Ret (Some 4) /\
  cpp_jump_search Z.eqb Z.leb [Some 9; Some 9; Some 9; Some 9; Some 1; Some 2; Some 3; Some 4] 1 (Some 4) (Some 7) None = Ret (Some 4) /\
  jump_search Z.eqb Z.ltb [9; 9; 9; 9; 1; 2; 3; 4] 1 4 7 = Ret None /\
  sorted_range Z.le [Some 9; Some 1; Some 3; Some 3; Some 8; None; None] 1 6 /\ orders (order_of Z.leb None) Z.le.
Proof.
  repeat split; try (vm_compute; reflexivity).
  - intros i j Hi Hij Hj. assert (i = 1 \/ i = 2 \/ i = 3 \/ i = 4 \/ i = 5 \/ i = 6) as [->|[->|[->|[->|[->| ->]]]]] by lia;
      assert (j = 1 \/ j = 2 \/ j = 3 \/ j = 4 \/ j = 5 \/ j = 6) as [->|[->|[->|[->|[->| ->]]]]] by lia; try lia; vm_compute; (exact I || discriminate).
  - unfold order_of. intros HH. apply Z.leb_le. exact HH.
  - unfold order_of. intros HH. apply Z.leb_le. exact HH.
Qed.

(** C104. is_ordered in C++ computes what it computes in Python, so it has the same defects (C33): [1, 1] is not "ordered"
    under the default comparator, and an empty cell hides what is around it. *)
Theorem C104_cpp_is_ordered_refuted :
  cpp_is_ordered Z.leb [Some 1; Some 1] None None None = Ret false /\ cpp_is_ordered Z.leb [Some 1; None; Some 0] None None None = Ret true.
Proof. split; vm_compute; reflexivity. Qed.
Print Assumptions C104_cpp_is_ordered_refuted.
Theorem C104_cpp_is_ordered_python_partial : forall (A : Type) (le : A -> A -> bool) (comp : option (A -> A -> pyobj)) (a : list (option A)) (start end_ : option Z),
  bool_valued comp -> len a < 2 ^ 63 -> 0 <= range_start start < 2 ^ 63 -> (end_ = None \/ 0 <= range_end a end_) -> range_end a end_ < len a ->
  cpp_is_ordered le a start end_ comp = is_ordered (order_of le comp) a (range_start start) (range_end a end_).
Proof.
  intros A le comp a start end_ HB Hl Hs He He2. assert (Hw : 2 ^ 63 < word) by (rewrite word_val; lia).
  assert (He1 : -1 <= range_end a end_) by (destruct He as [->|]; [cbn; pose proof (len_nonneg _ a); lia|lia]).
  unfold cpp_is_ordered. rewrite opt_lower_ok, opt_upper_def by (first [exact He | lia]). cbn [bind]. rewrite is_ordered_same by lia.
  unfold is_ordered. f_equal. apply for_find_same. intros i _. destruct (aget a i) as [x| |]; try reflexivity. cbn [bind].
  destruct (aget a (i - 1)) as [y| |]; try reflexivity. cbn [bind]. destruct x, y; try reflexivity. rewrite eff_order by exact HB. reflexivity.
Qed.
Print Assumptions C104_cpp_is_ordered_python_partial.
Theorem C104_cpp_is_ordered_adjacent_partial : forall (A : Type) (d : A) (le : A -> A -> bool) (comp : option (A -> A -> pyobj)) (l : list A) (start end_ : option Z),
  bool_valued comp -> len l < 2 ^ 63 -> 0 <= range_start start < 2 ^ 63 -> (end_ = None \/ 0 <= range_end l end_) -> range_end l end_ < len l ->
  exists b, cpp_is_ordered le (map Some l) start end_ comp = Ret b /\
    (b = true <-> forall i, range_start start < i <= range_end l end_ -> order_of le comp (zn d l i) (zn d l (i - 1)) = false).
Proof.
  intros A d le comp l start end_ HB Hl Hs He He2. assert (El : len (map Some l) = len l) by (unfold len; rewrite map_length; reflexivity).
  assert (Ee : range_end (map Some l) end_ = range_end l end_) by (destruct end_; cbn; rewrite ?El; reflexivity).
  rewrite C104_cpp_is_ordered_python_partial; rewrite ?El, ?Ee; auto. apply wp_ex. apply is_ordered_ok; lia.
Qed.
Print Assumptions C104_cpp_is_ordered_adjacent_partial.
Example C104_case : cpp_is_ordered Z.leb [Some 1; Some 2; Some 5; Some 3] None (Some 2) None = Ret true /\
  cpp_is_ordered Z.leb [Some 1; Some 2; Some 5; Some 3] None None None = Ret false /\
  cpp_is_ordered Z.leb [Some 1; Some 1] None None (Some (fun x y => if x <? y then PyTrue else PyFalse)) = Ret true.
Proof. repeat split; vm_compute; reflexivity. Qed.
