(** Properties C15-C28 (sorting). The specification is SortSpec.v ([sorts], [decides], [stable]); proofs are in
    SortProofs*.v and DistProofs*.v. [a] is the array's cells, [s..e] the inclusive range that is sorted. *)
From Verif Require Import Base ArraysProofs SortModel SortModel2 SortSpec SortProofs SortProofs2 SortProofs3 SortProofs4 DistProofs2 DistProofs3.
From Coq Require Import Sorted.

(** Both the default comparator and a strict one are admissible. *)
Example decides_leb : decides Z.leb Z.le.
Proof. split; [intros x y H; apply Z.leb_le, H|intros x y H; apply Z.leb_gt in H; lia|intros; lia]. Qed.
Example decides_ltb : decides Z.ltb Z.le.
Proof. split; [intros x y H; apply Z.ltb_lt in H; lia|intros x y H; apply Z.ltb_ge, H|intros; lia]. Qed.
(** ordering by a key with ties: pairs compared on the first component *)
Example decides_fst : decides (fun x y : Z * Z => fst x <=? fst y) (fun x y => fst x <= fst y).
Proof. split; [intros x y H; apply Z.leb_le, H|intros x y H; apply Z.leb_gt in H; lia|intros; lia]. Qed.
Definition demo : list (option Z) := [Some 9; Some 3; None; Some 7; Some 3; Some 1; Some 0].

(** C15 *)
Theorem C15_bubble_sort_sorts : forall (A : Type) (comp : A -> A -> bool) (le : A -> A -> Prop) (a : list (option A)) (s e : Z),
  decides comp le -> 0 <= s -> e < len a -> exists b, bubble_sort comp a s e = Ret b /\ sorts le a s e b.
Proof. intros A comp le a s e D H1 H2. apply wp_ex. exact (bubble_ok comp le D a s e H1 H2). Qed.
Print Assumptions C15_bubble_sort_sorts.
Example C15_case : 0 <= 1 /\ 5 < len demo /\ bubble_sort Z.leb demo 1 5 = Ret [Some 9; Some 1; Some 3; Some 3; Some 7; None; Some 0].
Proof. repeat split; vm_compute; reflexivity || lia || congruence. Qed.

(** C16 *)
Theorem C16_selection_sort_sorts : forall (A : Type) (comp : A -> A -> bool) (le : A -> A -> Prop) (a : list (option A)) (s e : Z),
  decides comp le -> 0 <= s -> e < len a -> exists b, selection_sort comp a s e = Ret b /\ sorts le a s e b.
Proof. intros A comp le a s e D H1 H2. apply wp_ex. exact (selection_ok comp le D a s e H1 H2). Qed.
Print Assumptions C16_selection_sort_sorts.
Example C16_case : selection_sort Z.leb demo 1 5 = Ret [Some 9; Some 1; Some 3; Some 3; Some 7; None; Some 0].
Proof. vm_compute; reflexivity. Qed.

(** C17 *)
Theorem C17_insertion_sort_sorts : forall (A : Type) (comp : A -> A -> bool) (le : A -> A -> Prop) (a : list (option A)) (s e : Z),
  decides comp le -> 0 <= s -> e < len a -> exists b, insertion_sort comp a s e = Ret b /\ sorts le a s e b.
Proof. intros A comp le a s e D H1 H2. apply wp_ex. exact (insertion_ok comp le D a s e H1 H2). Qed.
Print Assumptions C17_insertion_sort_sorts.
Example C17_case : insertion_sort Z.ltb demo 1 5 = Ret [Some 9; Some 1; Some 3; Some 3; Some 7; None; Some 0].
Proof. vm_compute; reflexivity. Qed.

(** C18 *)
Theorem C18_cocktail_sort_sorts : forall (A : Type) (comp : A -> A -> bool) (le : A -> A -> Prop) (a : list (option A)) (s e : Z),
  decides comp le -> 0 <= s -> e < len a -> exists b, cocktail_sort comp a s e = Ret b /\ sorts le a s e b.
Proof. intros A comp le a s e D H1 H2. apply wp_ex. exact (cocktail_ok comp le D a s e H1 H2). Qed.
Print Assumptions C18_cocktail_sort_sorts.
Example C18_case : cocktail_sort Z.leb demo 1 5 = Ret [Some 9; Some 1; Some 3; Some 3; Some 7; None; Some 0].
Proof. vm_compute; reflexivity. Qed.

(** C19 *)
Theorem C19_shell_sort_sorts : forall (A : Type) (comp : A -> A -> bool) (le : A -> A -> Prop) (a : list (option A)) (s e : Z),
  decides comp le -> 0 <= s -> e < len a -> exists b, shell_sort comp a s e = Ret b /\ sorts le a s e b.
Proof. intros A comp le a s e D H1 H2. apply wp_ex. exact (shell_ok comp le D a s e H1 H2). Qed.
Print Assumptions C19_shell_sort_sorts.
Example C19_case : shell_sort Z.leb demo 1 5 = Ret [Some 9; Some 1; Some 3; Some 3; Some 7; None; Some 0].
Proof. vm_compute; reflexivity. Qed.

(** C20, default pivot; on an empty range quick_sort raises IndexError instead. *)
Theorem C20_quick_sort_sorts : forall (A : Type) (comp : A -> A -> bool) (le : A -> A -> Prop) (a : list (option A)) (s e : Z),
  decides comp le -> 0 <= s -> s <= e -> e < len a -> exists b, quick_sort comp default_pivot a s e = Ret b /\ sorts le a s e b.
Proof. intros A comp le a s e D H1 H2 H3. apply wp_ex. exact (quick_ok comp le D a s e H1 H2 H3). Qed.
Print Assumptions C20_quick_sort_sorts.
Theorem C20_quick_sort_empty_raises : forall (A : Type) (comp : A -> A -> bool),
  quick_sort comp default_pivot ([] : list (option A)) 0 (-1) = Raise IndexError.
Proof. reflexivity. Qed.
Print Assumptions C20_quick_sort_empty_raises.
Example C20_case : quick_sort Z.leb default_pivot demo 1 5 = Ret [Some 9; Some 1; Some 3; Some 3; Some 7; None; Some 0].
Proof. vm_compute; reflexivity. Qed.

(** C21 is false of the code: with the pivot taken at [low], [2,3,1] comes out as [2,1,3]. *)
Theorem C21_quick_sort_pick_refuted :
  exists pick : Z -> Z -> list (option Z) -> res (option Z),
    (forall low high a, 0 <= low -> low <= high -> high < len a -> exists i, low <= i <= high /\ pick low high a = Ret (zn None a i)) /\
    quick_sort Z.leb pick [Some 2; Some 3; Some 1] 0 2 = Ret [Some 2; Some 1; Some 3].
Proof.
  exists (fun low high a => aget a low). split; [|vm_compute; reflexivity].
  intros low high a H1 H2 H3. exists low. split; [lia|apply aget_ok; lia].
Qed.
Print Assumptions C21_quick_sort_pick_refuted.
(** What holds for every picker that returns normally: quick_sort terminates, rearranges the range and touches nothing else. *)
Theorem C21_quick_sort_pick_partial : forall (A : Type) (comp : A -> A -> bool) (le : A -> A -> Prop)
    (pick : Z -> Z -> list (option A) -> res (option A)) (a : list (option A)) (s e : Z),
  decides comp le -> 0 <= s -> s <= e -> e < len a ->
  (forall low high b, s <= low -> low <= high -> high <= e -> len b = len a -> exists x, pick low high b = Ret x) ->
  exists b, quick_sort comp pick a s e = Ret b /\ rearranged None a s e b.
Proof.
  intros A comp le pick a s e D H1 H2 H3 Hp. apply wp_ex. eapply wp_mono; [apply (quick_gen comp le D pick a s e false H1 H2 H3)|].
  - intros lo hi b K1 K2 K3 K4. destruct (Hp lo hi b K1 K2 K3 K4) as (x & E). exists x. split; [exact E|discriminate].
  - intros b [RA _]. exact RA.
Qed.
Print Assumptions C21_quick_sort_pick_partial.
Example C21_case : forall low high (b : list (option Z)), 1 <= low -> low <= high -> high <= 5 -> len b = len demo -> exists x, aget b low = Ret x.
Proof. intros low high b H1 H2 H3 H4. exists (zn None b low). apply aget_ok. change (len demo) with 7 in H4. lia. Qed.

(** C22: for every positive number of threads. Stability needs a comparator that answers True on ties (the default [<=] does);
    on an empty range log(0) raises ValueError. *)
Theorem C22_merge_sort_sorts_stably : forall (A : Type) (comp : A -> A -> bool) (le : A -> A -> Prop) (num_threads : Z) (a : list (option A)) (s e : Z),
  decides comp le -> 0 < num_threads -> 0 <= s -> s <= e -> e < len a ->
  exists b, merge_sort_parallel comp num_threads a s e = Ret b /\ sorts le a s e b /\
            ((forall x y, le x y -> comp x y = true) -> stable comp a b).
Proof. intros A comp le nt a s e D H0 H1 H2 H3. apply wp_ex. exact (merge_sort_ok comp le D nt a s e H0 H1 H2 H3). Qed.
Print Assumptions C22_merge_sort_sorts_stably.
Example C22_case : merge_sort_parallel (fun x y : Z * Z => fst x <=? fst y) 4
    [Some (3,1); Some (1,1); None; Some (3,2); Some (1,2); Some (2,1)] 0 5
  = Ret [Some (1,1); Some (1,2); Some (2,1); Some (3,1); Some (3,2); None] /\ (forall x y : Z * Z, fst x <= fst y -> (fst x <=? fst y) = true).
Proof. split; [vm_compute; reflexivity|]. intros x y H; apply Z.leb_le, H. Qed.

(** C23 is false of the code: with the default comparator two equal elements are swapped for ever. *)
Theorem C23_brick_sort_diverges_refuted : forall fuel, brick_sort Z.leb fuel [Some 1; Some 1] 0 1 = OutOfFuel.
Proof.
  intros fuel. destruct fuel as [|fuel]; [reflexivity|].
  assert (G : forall n, brick_sort Z.leb n [Some 1; Some 1] 0 1 = OutOfFuel); [|apply G].
  intros n. unfold brick_sort. induction n as [|n IH]; [reflexivity|]. cbn [while_loop]. simpl. exact IH.
Qed.
Print Assumptions C23_brick_sort_diverges_refuted.
(** It does terminate, sorted, when no two elements of the array are tied both ways under comp
    (distinct elements under [<=], or any elements under a strict [<]). *)
Theorem C23_brick_sort_sorts_partial : forall (A : Type) (comp : A -> A -> bool) (le : A -> A -> Prop) (a : list (option A)) (s e : Z) (fuel : nat),
  decides comp le -> 0 <= s -> e < len a -> ForallOrdPairs (fun u v => pcomp comp u v && pcomp comp v u = false) a ->
  (length a * length a + 2 <= fuel)%nat ->
  exists b, brick_sort comp fuel a s e = Ret b /\ sorts le a s e b.
Proof. intros A comp le a s e fuel D H1 H2 H3 H4. apply wp_ex. exact (brick_ok comp le D a s e fuel H1 H2 H3 H4). Qed.
Print Assumptions C23_brick_sort_sorts_partial.
Example C23_case : ForallOrdPairs (fun u v => pcomp Z.ltb u v && pcomp Z.ltb v u = false) demo /\
  brick_sort Z.ltb 51 demo 1 5 = Ret [Some 9; Some 1; Some 3; Some 3; Some 7; None; Some 0].
Proof. split; [repeat constructor|vm_compute; reflexivity]. Qed.

(** C24: [comp] is Python's [<=] on the elements; heapsort takes no comparator. *)
Theorem C24_heapsort_sorts : forall (A : Type) (comp : A -> A -> bool) (le : A -> A -> Prop) (a : list (option A)) (s e : Z),
  decides comp le -> 0 <= s -> e < len a -> exists b, heapsort comp a s e = Ret b /\ sorts le a s e b.
Proof. intros A comp le a s e D H1 H2. apply wp_ex. exact (heapsort_ok comp le D a s e H1 H2). Qed.
Print Assumptions C24_heapsort_sorts.
Example C24_case : heapsort Z.leb demo 1 5 = Ret [Some 9; Some 1; Some 3; Some 3; Some 7; None; Some 0].
Proof. vm_compute; reflexivity. Qed.

(** C25: for every maxdepth and ins_threshold. *)
Theorem C25_intro_sort_sorts : forall (A : Type) (comp : A -> A -> bool) (le : A -> A -> Prop) (a : list (option A)) (s e maxdepth ins_threshold : Z),
  decides comp le -> 0 <= s -> e < len a -> exists b, intro_sort comp a s e maxdepth ins_threshold = Ret b /\ sorts le a s e b.
Proof. intros A comp le a s e md ins D H1 H2. apply wp_ex. exact (intro_ok comp le D a s e md ins H1 H2). Qed.
Print Assumptions C25_intro_sort_sorts.
Example C25_case : intro_sort Z.leb demo 1 5 1 2 = Ret [Some 9; Some 1; Some 3; Some 3; Some 7; None; Some 0] /\
  intro_sort Z.leb demo 1 5 (-3) (-7) = Ret [Some 9; Some 1; Some 3; Some 3; Some 7; None; Some 0].
Proof. split; vm_compute; reflexivity. Qed.

(** C26: for every integer array with at least one number. The input array is a value here and is not written by the code. *)
Theorem C26_counting_sort_sorts : forall a : list (option Z), content a <> [] ->
  exists w, counting_sort a = Ret (map Some w) /\ Permutation (content a) w /\ StronglySorted Z.le w.
Proof.
  intros a H. assert (Ha : a <> []) by (intros ->; apply H; reflexivity). pose proof (counting_ok a Ha) as W. apply wp_ex in W.
  destruct W as (out & E & _ & G). destruct (G H) as (w & -> & P & S). exists w. auto.
Qed.
Print Assumptions C26_counting_sort_sorts.
Example C26_case : content demo <> [] /\ counting_sort [None; Some 5; Some (-2); None; Some 5; Some 0] = Ret [Some (-2); Some 0; Some 5; Some 5].
Proof. split; [discriminate|vm_compute; reflexivity]. Qed.

(** C27 is false of the code: with maximum 0 no pass runs and a None stays in front. *)
Theorem C27_radix_sort_none_refuted :
  radix_sort [Some 0; None; Some 0] 0 2 = Ret [Some 0; None; Some 0] /\ ~ sorted_range Z.le [Some 0; None; Some 0] 0 2.
Proof. split; [vm_compute; reflexivity|]. intros H. specialize (H 1 2). vm_compute in H. apply H; congruence. Qed.
Print Assumptions C27_radix_sort_none_refuted.
(** It sorts whenever the numbers are non-negative, the first cell is a number and some number is positive or no cell is None. *)
Theorem C27_radix_sort_sorts_partial : forall (a : list (option Z)) (s e : Z),
  0 <= s -> s <= e -> e < len a -> zn None a s <> None ->
  (forall i v, s <= i <= e -> zn None a i = Some v -> 0 <= v) ->
  ((exists i v, s <= i <= e /\ zn None a i = Some v /\ 0 < v) \/ (forall i, s <= i <= e -> zn None a i <> None)) ->
  exists b, radix_sort a s e = Ret b /\ sorts Z.le a s e b.
Proof. intros. apply wp_ex. apply radix_ok; assumption. Qed.
Print Assumptions C27_radix_sort_sorts_partial.
Example C27_case : radix_sort [Some 170; Some 45; None; Some 0; Some 1002; Some 45] 0 5 = Ret [Some 0; Some 45; Some 45; Some 170; Some 1002; None] /\
  zn None [Some 170; Some 45; None; Some 0; Some 1002; Some 45] 0 <> None.
Proof. split; [vm_compute; reflexivity|discriminate]. Qed.

(** C28 is false of the code: small maxima divide by zero, others run off the bucket list. *)
Theorem C28_bucket_sort_refuted :
  bucket_sort [Some 1; Some 2; Some 0] 0 2 = Raise ZeroDivisionError /\ bucket_sort [Some 1; Some 2; Some 5] 0 2 = Raise IndexError.
Proof. split; vm_compute; reflexivity. Qed.
Print Assumptions C28_bucket_sort_refuted.
(** It sorts when the numbers are non-negative, there are at most as many as their maximum, and the maximum falls into
    one of the buckets 0..count, bucket [count] being usable only for count <= 256 (the code tests [j is not count]). *)
Theorem C28_bucket_sort_sorts_partial : forall (a : list (option Z)) (s e mx count : Z),
  0 <= s -> s <= e -> e < len a ->
  count = len (content (seg a s e)) -> In mx (content (seg a s e)) -> (forall v, In v (content (seg a s e)) -> 0 <= v <= mx) ->
  count <= mx -> mx / (mx / count) <= count -> mx / (mx / count) < count \/ count <= 256 ->
  exists b, bucket_sort a s e = Ret b /\ sorts Z.le a s e b.
Proof. intros a s e mx count H1 H2 H3 -> H5 H6 H7 H8 H9. apply wp_ex. apply (bucket_ok a s e mx); assumption. Qed.
Print Assumptions C28_bucket_sort_sorts_partial.
Example C28_case : bucket_sort [Some 5; None; Some 78; Some 1; Some 0] 0 4 = Ret [Some 0; Some 1; Some 5; Some 78; None] /\
  4 <= 78 /\ 78 / (78 / 4) <= 4 /\ len (content (seg [Some 5; None; Some 78; Some 1; Some 0] 0 4)) = 4.
Proof. repeat split; vm_compute; congruence. Qed.
