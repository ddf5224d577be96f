(** Properties C29-C38 (searches, bounds, subsequences, permutations, matrix product).
    Specification: SearchSpec.v. [d] is only the default of out-of-range reads [zn d a i] in the statements. *)
From Verif Require Import Base SortModel SearchModel SearchSpec SearchProofs SubseqProofs DistProofs LisProofs PermProofs.
From Coq Require Import Sorted.

Example total_order_Z : total_order Z.le.
Proof. split; intros; lia. Qed.
Example orders_leb : orders Z.leb Z.le.
Proof. intros x y _. apply Z.leb_le. Qed.
Example orders_ltb : orders Z.ltb Z.le.
Proof. intros x y H. rewrite Z.ltb_lt. lia. Qed.

(** C29: None cells allowed *)
Theorem C29_linear_search_first : forall (A : Type) (eqb : A -> A -> bool) (a : list (option A)) (v : A) (s e : Z),
  (forall x y, eqb x y = true <-> x = y) -> 0 <= s -> e < len a ->
  exists r, linear_search eqb a v s e = Ret r /\ first_index (fun i => zn None a i = Some v) s e r.
Proof. intros A eqb a v s e H H1 H2. apply wp_ex. exact (linear_search_ok eqb H a v s e H1 H2). Qed.
Print Assumptions C29_linear_search_first.
Example C29_case : linear_search Z.eqb [Some 4; None; Some 7; Some 4; Some 7] 7 1 4 = Ret (Some 2) /\
  linear_search Z.eqb [Some 4; None; Some 7; Some 4; Some 7] 4 1 2 = Ret None.
Proof. split; vm_compute; reflexivity. Qed.

(** C30: for a total order and a comparator that answers [<=] or [<] *)
Theorem C30_binary_search_exact : forall (A : Type) (d : A) (eqb comp : A -> A -> bool) (le : A -> A -> Prop) (a : list A) (v : A) (s e : Z),
  (forall x y, eqb x y = true <-> x = y) -> total_order le -> orders comp le -> 0 <= s -> e < len a -> ascending d le a s e ->
  exists r, binary_search eqb comp a v s e = Ret r /\ some_index (fun i => zn d a i = v) s e r.
Proof. intros A d eqb comp le a v s e H TO OR H1 H2 H3. apply wp_ex. exact (binary_search_ok d eqb comp le H TO a v s e OR H1 H2 H3). Qed.
Print Assumptions C30_binary_search_exact.
Example C30_case : binary_search Z.eqb Z.leb [9; 1; 3; 3; 8; 0] 8 1 4 = Ret (Some 4) /\ binary_search Z.eqb Z.leb [9; 1; 3; 3; 8; 0] 4 1 4 = Ret None /\
  ascending 0 Z.le [9; 1; 3; 3; 8; 0] 1 4.
Proof.
  split; [vm_compute; reflexivity|]. split; [vm_compute; reflexivity|].
  intros i j H1 H2 H3. assert (Hi : i = 1 \/ i = 2 \/ i = 3 \/ i = 4) by lia. assert (Hj : j = 1 \/ j = 2 \/ j = 3 \/ j = 4) by lia.
  destruct Hi as [-> |[-> |[-> | ->]]], Hj as [-> |[-> |[-> | ->]]]; vm_compute; try lia; congruence.
Qed.

(** C31 is false of the code when start > 0: a present value is missed, and an index outside the range is returned. *)
Theorem C31_jump_search_start_refuted :
  jump_search Z.eqb Z.ltb [9; 9; 9; 9; 1; 2; 3; 4] 1 4 7 = Ret None /\ zn 0 [9; 9; 9; 9; 1; 2; 3; 4] 4 = 1 /\
  jump_search Z.eqb Z.ltb [1; 2; 3; 4; 5; 6; 7; 8] 3 5 7 = Ret (Some 2).
Proof. repeat split; vm_compute; reflexivity. Qed.
Print Assumptions C31_jump_search_start_refuted.
(** With start = 0 (the default) and a strict comparator (the default) it is exact on every non-empty sorted range. *)
Theorem C31_jump_search_exact_partial : forall (A : Type) (d : A) (eqb comp : A -> A -> bool) (le : A -> A -> Prop) (a : list A) (v : A) (e : Z),
  (forall x y, eqb x y = true <-> x = y) -> total_order le -> orders comp le -> (forall x, comp x x = false) -> 0 <= e < len a -> ascending d le a 0 e ->
  exists r, jump_search eqb comp a v 0 e = Ret r /\ some_index (fun i => zn d a i = v) 0 e r.
Proof. intros A d eqb comp le a v e H TO OR I H1 H2. apply wp_ex. exact (jump_search_ok d eqb comp le H TO a v e OR I H1 H2). Qed.
Print Assumptions C31_jump_search_exact_partial.
Example C31_case : jump_search Z.eqb Z.ltb [1; 3; 3; 8; 10; 12; 20] 12 0 6 = Ret (Some 5) /\ jump_search Z.eqb Z.ltb [1; 3; 3; 8; 10; 12; 20] 11 0 6 = Ret None /\
  (forall x, Z.ltb x x = false).
Proof. split; [vm_compute; reflexivity|]. split; [vm_compute; reflexivity|]. exact Z.ltb_irrefl. Qed.

(** C32: for every strict weak order ([~comp] transitive) and every range s..e-1 sorted under it. *)
Theorem C32_lower_bound_partition : forall (A : Type) (d : A) (comp : A -> A -> bool) (a : list A) (v : A) (s e : Z),
  (forall x y z, comp x y = false -> comp y z = false -> comp x z = false) ->
  0 <= s -> s <= e -> e <= len a -> s < len a -> (forall i j, s <= i -> i <= j -> j < e -> comp (zn d a j) (zn d a i) = false) ->
  exists r, lower_bound comp a v s e = Ret r /\ s <= r <= e /\
    (forall i, s <= i < r -> comp (zn d a i) v = true) /\ (forall i, r <= i < e -> comp (zn d a i) v = false).
Proof. intros A d comp a v s e NT H1 H2 H3 H4 H5. apply wp_ex. exact (lower_bound_ok d comp NT a v s e H1 H2 H3 H4 H5). Qed.
Print Assumptions C32_lower_bound_partition.
Theorem C32_upper_bound_partition : forall (A : Type) (d : A) (comp : A -> A -> bool) (a : list A) (v : A) (s e : Z),
  (forall x y z, comp x y = false -> comp y z = false -> comp x z = false) ->
  0 <= s -> s <= e -> e <= len a -> s < len a -> (forall i j, s <= i -> i <= j -> j < e -> comp (zn d a j) (zn d a i) = false) ->
  exists r, upper_bound comp a v s e = Ret r /\ s <= r <= e /\
    (forall i, s <= i < r -> comp v (zn d a i) = false) /\ (forall i, r <= i < e -> comp v (zn d a i) = true).
Proof. intros A d comp a v s e NT H1 H2 H3 H4 H5. apply wp_ex. exact (upper_bound_ok d comp NT a v s e H1 H2 H3 H4 H5). Qed.
Print Assumptions C32_upper_bound_partition.
(** On an empty array both raise IndexError. *)
Theorem C32_bounds_empty_raise : forall (A : Type) (comp : A -> A -> bool) (v : A),
  lower_bound comp [] v 0 0 = Raise IndexError /\ upper_bound comp [] v 0 0 = Raise IndexError.
Proof. split; reflexivity. Qed.
Print Assumptions C32_bounds_empty_raise.
Example C32_case : lower_bound Z.ltb [4; 5; 5; 6; 7] 5 0 5 = Ret 1 /\ upper_bound Z.ltb [4; 5; 5; 6; 7] 5 0 5 = Ret 3 /\
  (forall x y z, Z.ltb x y = false -> Z.ltb y z = false -> Z.ltb x z = false).
Proof. repeat split; try (vm_compute; reflexivity). intros x y z. rewrite !Z.ltb_ge. lia. Qed.

(** C33 is false of the code: equal neighbours are reported unordered, and a None cell hides a descent. *)
Theorem C33_is_ordered_refuted :
  is_ordered Z.leb [Some 1; Some 1] 0 1 = Ret false /\ is_ordered Z.leb [Some 1; None; Some 0] 0 2 = Ret true.
Proof. split; vm_compute; reflexivity. Qed.
Print Assumptions C33_is_ordered_refuted.
(** What it decides on arrays without None: no element is [comp]-related to its predecessor; with a strict comparator that
    is non-decreasing order (second part), with the default [<=] strictly increasing order. *)
Theorem C33_is_ordered_adjacent_partial : forall (A : Type) (d : A) (comp : A -> A -> bool) (l : list A) (s e : Z), 0 <= s -> e < len l ->
  exists b, is_ordered comp (map Some l) s e = Ret b /\ (b = true <-> forall i, s < i <= e -> comp (zn d l i) (zn d l (i - 1)) = false).
Proof. intros A d comp l s e H1 H2. apply wp_ex. exact (is_ordered_ok d comp l s e H1 H2). Qed.
Print Assumptions C33_is_ordered_adjacent_partial.
Theorem C33_is_ordered_strict_partial : forall (l : list Z) (s e : Z), 0 <= s -> e < len l ->
  exists b, is_ordered Z.ltb (map Some l) s e = Ret b /\ (b = true <-> ascending 0 Z.le l s e).
Proof.
  intros l s e H1 H2. pose proof (is_ordered_ok 0 Z.ltb l s e H1 H2) as W. apply wp_ex in W. destruct W as (b & E & Hb).
  exists b. split; [exact E|]. rewrite Hb. split.
  - intros H i j Hi Hij Hj. remember (Z.to_nat (j - i)) as t eqn:Et. revert j Hij Hj Et. induction t as [|t IH]; intros j Hij Hj Et.
    + replace j with i by lia. lia.
    + specialize (IH (j - 1) ltac:(lia) ltac:(lia) ltac:(lia)). specialize (H j ltac:(lia)). apply Z.ltb_ge in H. lia.
  - intros H i Hi. apply Z.ltb_ge. apply H; lia.
Qed.
Print Assumptions C33_is_ordered_strict_partial.
Example C33_case : is_ordered Z.ltb (map Some [1; 1; 4; 9; 2]) 0 3 = Ret true /\ is_ordered Z.ltb (map Some [1; 1; 4; 9; 2]) 0 4 = Ret false.
Proof. split; vm_compute; reflexivity. Qed.

(** C34 *)
Theorem C34_lcs_optimal : forall (A : Type) (d : A) (eqb : A -> A -> bool) (seq1 seq2 : list A),
  (forall x y, eqb x y = true <-> x = y) ->
  exists s, longest_common_subsequence eqb seq1 seq2 = Ret s /\ subseq s seq1 /\ subseq s seq2 /\
    forall t, subseq t seq1 -> subseq t seq2 -> len t <= len s.
Proof. intros A d eqb s1 s2 H. apply wp_ex. exact (lcs_ok d eqb H s1 s2). Qed.
Print Assumptions C34_lcs_optimal.
Example C34_case : longest_common_subsequence Z.eqb [1; 3; 4; 1; 2; 3] [1; 2; 4; 1; 3] = Ret [1; 4; 1; 3].
Proof. vm_compute; reflexivity. Qed.

(** C35 *)
Theorem C35_lis_optimal : forall a : list Z, a <> [] ->
  exists r, longest_increasing_subsequence a = Ret r /\ subseq r a /\ StronglySorted Z.lt r /\
    forall s, subseq s a -> StronglySorted Z.lt s -> len s <= len r.
Proof. intros a H. apply wp_ex. apply lis_ok. destruct a; [contradiction|]. unfold len; simpl length; lia. Qed.
Print Assumptions C35_lis_optimal.
Example C35_case : longest_increasing_subsequence [2; 5; 3; 7; 11; 8; 10; 13; 6] = Ret [2; 3; 7; 8; 10; 13].
Proof. vm_compute; reflexivity. Qed.

Example strict_total_ltb : strict_total Z.ltb.
Proof. repeat split; intros; rewrite ?Z.ltb_irrefl, ?Z.ltb_lt in *; lia. Qed.

(** C36 *)
Theorem C36_next_permutation : forall (A : Type) (d : A) (comp : A -> A -> bool) (a : list A) (s e : Z),
  strict_total comp -> 0 <= s -> s <= e + 1 -> e < len a ->
  exists b p, next_permutation comp a s e = Ret (b, p) /\
    (b = true -> lex_successor (fun x y => comp x y = true) (slice a s e) p) /\
    (b = false -> no_lex_greater (fun x y => comp x y = true) (slice a s e) /\ Permutation (slice a s e) p /\
                  StronglySorted (fun x y => comp y x = false) p).
Proof.
  intros A d comp a s e (Irr & Tr & Tot) H1 H2 H3.
  set (lt := fun x y => comp x y = true).
  assert (irr : forall x, ~ lt x x) by (unfold lt; intros x K; rewrite Irr in K; discriminate).
  assert (pct : forall x y z, (if comp x y then false else true) = true -> (if comp y z then false else true) = true -> (if comp x z then false else true) = true).
  { intros x y z K1 K2. destruct (comp x z) eqn:E; [|reflexivity]. exfalso. refine (ge_trans lt Tr Tot x y z _ _ E); unfold lt; intros K; rewrite K in *; discriminate. }
  pose proof (perm_util_ok d _ pct a s e H1 H2 H3) as W. apply wp_ex in W. destruct W as ([b p] & E & Post).
  exists b, p. split; [exact E|]. fold (slice a s e) in Post.
  assert (conv : forall x y, (if comp x y then false else true) = true -> ~ lt x y) by (unfold lt; intros x y K1 K2; rewrite K2 in K1; discriminate).
  destruct Post as [[K S]|(pre & x & s1 & y & s2 & Es & K & S & Hxy & Hz)]; injection K as -> ->.
  - split; [discriminate|]. intros _. split; [|split; [apply Permutation_rev|]].
    + apply (antisorted_greatest lt irr). eapply SS_impl_in; [|exact S]. intros u v _ _. apply conv.
    + eapply SS_impl_in; [|apply (SS_rev _ _ S)]. simpl. intros u v _ _ K. destruct (comp v u); [discriminate|reflexivity].
  - split; [|discriminate]. intros _. rewrite Es. apply (next_lemma lt irr Tr Tot).
    + eapply SS_impl_in; [|exact S]. intros u v _ _. apply conv.
    + unfold lt. destruct (comp x y); [reflexivity|discriminate].
    + intros z Hz'. apply conv, Hz, Hz'.
Qed.
Print Assumptions C36_next_permutation.
Example C36_case : next_permutation Z.ltb [7; 1; 3; 2; 2; 0] 1 4 = Ret (true, [2; 1; 2; 3]) /\ next_permutation Z.ltb [3; 2; 2] 0 2 = Ret (false, [2; 2; 3]).
Proof. split; vm_compute; reflexivity. Qed.

(** C37 is false of the code with repeated elements: [1,1] has no predecessor. *)
Theorem C37_prev_permutation_refuted : prev_permutation Z.ltb [1; 1] 0 1 = Ret (true, [1; 1]) /\
  no_lex_greater (fun x y => y < x) [1; 1].
Proof.
  split; [vm_compute; reflexivity|]. apply antisorted_greatest; [lia|].
  constructor; [constructor; [constructor|constructor]|]. constructor; [lia|constructor].
Qed.
Print Assumptions C37_prev_permutation_refuted.
(** For ranges of distinct elements it is the greatest rearrangement below (the successor in the reversed order). *)
Theorem C37_prev_permutation_partial : forall (A : Type) (d : A) (comp : A -> A -> bool) (a : list A) (s e : Z),
  strict_total comp -> 0 <= s -> s <= e + 1 -> e < len a -> NoDup (slice a s e) ->
  exists b p, prev_permutation comp a s e = Ret (b, p) /\
    (b = true -> lex_successor (fun x y => comp y x = true) (slice a s e) p) /\
    (b = false -> no_lex_greater (fun x y => comp y x = true) (slice a s e) /\ Permutation (slice a s e) p /\
                  StronglySorted (fun x y => comp y x = true) p).
Proof.
  intros A d comp a s e (Irr & Tr & Tot) H1 H2 H3 ND.
  set (gt := fun x y => comp y x = true).
  assert (irr : forall x, ~ gt x x) by (unfold gt; intros x K; rewrite Irr in K; discriminate).
  assert (tr : forall x y z, gt x y -> gt y z -> gt x z) by (unfold gt; intros; eapply Tr; eassumption).
  assert (tot : forall x y, x = y \/ gt x y \/ gt y x) by (unfold gt; intros x y; destruct (Tot x y) as [?|[?|?]]; auto).
  assert (asym : forall x y, comp x y = true -> ~ gt x y).
  { unfold gt. intros x y K1 K2. specialize (Tr _ _ _ K1 K2). rewrite Irr in Tr. discriminate. }
  assert (pct : forall x y z, (if comp x y then true else false) = true -> (if comp y z then true else false) = true -> (if comp x z then true else false) = true).
  { intros x y z K1 K2. destruct (comp x y) eqn:E1, (comp y z) eqn:E2; try discriminate. rewrite (Tr x y z E1 E2). reflexivity. }
  assert (conv : forall x y, (if comp x y then true else false) = true -> comp x y = true) by (intros x y; destruct (comp x y); auto).
  pose proof (perm_util_ok d _ pct a s e H1 H2 H3) as W. apply wp_ex in W. destruct W as ([b p] & E & Post).
  exists b, p. split; [exact E|]. fold (slice a s e) in Post.
  destruct Post as [[K S]|(pre & x & s1 & y & s2 & Es & K & S & Hxy & Hz)]; injection K as -> ->.
  - split; [discriminate|]. intros _. split; [|split; [apply Permutation_rev|]].
    + apply (antisorted_greatest gt irr). eapply SS_impl_in; [|exact S]. intros u v _ _ K. apply asym, conv, K.
    + eapply SS_impl_in; [|apply (SS_rev _ _ S)]. simpl. intros u v _ _ K. apply conv, K.
  - split; [|discriminate]. intros _. rewrite Es in *. apply (next_lemma gt irr tr tot).
    + eapply SS_impl_in; [|exact S]. intros u v _ _ K. apply asym, conv, K.
    + destruct (tot x y) as [->|[K|K]]; [|exact K|].
      * exfalso. apply NoDup_remove_2 in ND. apply ND. apply in_or_app; right. apply in_or_app; right; left; reflexivity.
      * unfold gt in K. rewrite K in Hxy. discriminate.
    + intros z Hz'. apply asym, conv, Hz, Hz'.
Qed.
Print Assumptions C37_prev_permutation_partial.
Example C37_case : prev_permutation Z.ltb [3; 1; 2] 0 2 = Ret (true, [2; 3; 1]) /\ NoDup (slice [3; 1; 2] 0 2).
Proof. split; [vm_compute; reflexivity|]. vm_compute. repeat constructor; simpl; intuition congruence. Qed.
(** Repeated elements included, the result is always a rearrangement of the range. *)
Theorem C37_prev_permutation_rearranges_partial : forall (A : Type) (d : A) (comp : A -> A -> bool) (a : list A) (s e : Z),
  strict_total comp -> 0 <= s -> s <= e + 1 -> e < len a ->
  exists b p, prev_permutation comp a s e = Ret (b, p) /\ Permutation (slice a s e) p.
Proof.
  intros A d comp a s e (Irr & Tr & Tot) H1 H2 H3.
  assert (pct : forall x y z, (if comp x y then true else false) = true -> (if comp y z then true else false) = true -> (if comp x z then true else false) = true).
  { intros x y z K1 K2. destruct (comp x y) eqn:E1, (comp y z) eqn:E2; try discriminate. rewrite (Tr x y z E1 E2). reflexivity. }
  pose proof (perm_util_ok d _ pct a s e H1 H2 H3) as W. apply wp_ex in W. destruct W as ([b p] & E & Post).
  exists b, p. split; [exact E|]. fold (slice a s e) in Post.
  destruct Post as [[K S]|(pre & x & s1 & y & s2 & Es & K & S & Hxy & Hz)]; injection K as -> ->; [apply Permutation_rev|].
  rewrite Es. apply Permutation_app_head. rewrite <- Permutation_rev. rewrite <- !Permutation_middle. apply perm_swap.
Qed.
Print Assumptions C37_prev_permutation_rearranges_partial.

(** C38 is false of the code for non-square matrices. *)
Theorem C38_matrix_multiply_refuted :
  matrix_multiply_parallel [[1; 2]] [[3]; [4]] 2 = Ret [[Some 3; None]; [None; None]] /\
  matrix_multiply_parallel [[1]; [2]] [[3; 4]] 2 = Raise IndexError.
Proof. split; vm_compute; reflexivity. Qed.
Print Assumptions C38_matrix_multiply_refuted.
(** Square matrices: entry (i,j) of the n x n result is sum over k of m1[i][k] * m2[k][j], for any number of threads. *)
Theorem C38_matrix_multiply_square_partial : forall (n : Z) (m1 m2 : list (list Z)) (num_threads : Z),
  1 <= n -> square n m1 -> square n m2 ->
  exists C, matrix_multiply_parallel m1 m2 num_threads = Ret C /\ len C = n /\ (forall i, 0 <= i < n -> len (zn [] C i) = n) /\
    forall i j, 0 <= i < n -> 0 <= j < n ->
      zn None (zn [] C i) j = Some (sum_below (Z.to_nat n) (fun k => zn 0 (zn [] m1 i) k * zn 0 (zn [] m2 k) j)).
Proof. intros n m1 m2 nt H1 H2 H3. apply wp_ex. exact (matmul_ok n m1 m2 nt H1 H2 H3). Qed.
Print Assumptions C38_matrix_multiply_square_partial.
Example C38_case : square 2 [[1; 2]; [3; 4]] /\ matrix_multiply_parallel [[1; 2]; [3; 4]] [[3; 4]; [5; 6]] 2 = Ret [[Some 13; Some 16]; [Some 29; Some 36]].
Proof. split; [|vm_compute; reflexivity]. split; [reflexivity|]. intros r [<-|[<-|[]]]; reflexivity. Qed.
