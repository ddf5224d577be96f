(** C37: prev_permutation on ranges with equal elements. C21: pickers with which quick_sort sorts. Specifications: SearchSpec.v, SortSpec.v. *)
From Verif Require Import Base SortModel SortSpec SortProofs SortProofs2 CppProofs QuickPick SearchModel SearchSpec SearchProofs SubseqProofs DistProofs LisProofs PermProofs.
From Coq Require Import Sorted.

(** C37. Exactly what the code computes for every range, equal elements included. False is answered iff the range is strictly ascending, and the range is then
    returned reversed. Otherwise split the range at its longest strictly ascending tail; if the element x before the tail does not occur in it, the
    answer is the greatest rearrangement below the range; if it does occur, the tail is reversed and the answer is not below the range. *)
Theorem C37_prev_permutation_duplicates_partial : forall (A : Type) (d : A) (comp : A -> A -> bool) (a : list A) (s e : Z),
  strict_total comp -> 0 <= s -> s <= e + 1 -> e < len a ->
  exists b p, prev_permutation comp a s e = Ret (b, p) /\
    (b = false -> StronglySorted (fun x y => comp x y = true) (slice a s e) /\ p = rev (slice a s e)) /\
    (b = true -> ~ StronglySorted (fun x y => comp x y = true) (slice a s e) /\
      exists pre x tail, slice a s e = pre ++ x :: tail /\
        StronglySorted (fun x y => comp x y = true) tail /\ ~ StronglySorted (fun x y => comp x y = true) (x :: tail) /\
        (~ In x tail -> lex_successor (fun x y => comp y x = true) (slice a s e) p) /\
        (In x tail -> p = pre ++ x :: rev tail /\ ~ lex (fun x y => comp y x = true) (slice a s e) p)).
Proof.
  intros A d comp a s e (Irr & Tr & Tot) H1 H2 H3.
  set (gt := fun x y => comp y x = true). set (lt := fun x y => comp x y = true).
  assert (irr : forall x, ~ gt x x) by (unfold gt; intros x K; rewrite Irr in K; discriminate).
  assert (tr : forall x y z, gt x y -> gt y z -> gt x z) by (unfold gt; intros; eapply Tr; eassumption).
  assert (tot : forall x y, x = y \/ gt x y \/ gt y x) by (unfold gt; intros x y; destruct (Tot x y) as [?|[?|?]]; auto).
  assert (asym : forall x y, comp x y = true -> ~ gt x y).
  { unfold gt. intros x y K1 K2. specialize (Tr _ _ _ K1 K2). rewrite Irr in Tr. discriminate. }
  assert (pct : forall x y z, (if comp x y then true else false) = true -> (if comp y z then true else false) = true -> (if comp x z then true else false) = true).
  { intros x y z K1 K2. destruct (comp x y) eqn:E1, (comp y z) eqn:E2; try discriminate. rewrite (Tr x y z E1 E2). reflexivity. }
  assert (conv : forall x y, (if comp x y then true else false) = true -> comp x y = true) by (intros x y; destruct (comp x y); auto).
  pose proof (perm_util_ok d _ pct a s e H1 H2 H3) as W. apply wp_ex in W. destruct W as ([b p] & E & Post).
  exists b, p. split; [exact E|]. fold (slice a s e) in Post.
  destruct Post as [[K S]|(pre & x & s1 & y & s2 & Es & K & S & Hxy & Hz)]; injection K as -> ->.
  - split; [|discriminate]. intros _. split; [|reflexivity]. eapply SS_impl_in; [|exact S]. intros u v _ _ K. apply conv, K.
  - split; [discriminate|]. intros _.
    assert (St : StronglySorted lt (s1 ++ y :: s2)) by (eapply SS_impl_in; [|exact S]; intros u v _ _ K; apply conv, K).
    assert (Nxy : comp x y = false) by (destruct (comp x y); [discriminate|reflexivity]).
    assert (Nx : ~ StronglySorted lt (x :: s1 ++ y :: s2)).
    { intros K. inversion K as [|? ? _ F]; subst. rewrite Forall_forall in F. assert (In y (s1 ++ y :: s2)) as Hy by (apply in_or_app; right; left; reflexivity). specialize (F y Hy). unfold lt in F. congruence. }
    assert (Sg : StronglySorted (fun u v => ~ gt u v) (s1 ++ y :: s2)) by (eapply SS_impl_in; [|exact St]; intros u v _ _ K; apply asym, K).
    rewrite Es. split. { intros K. apply SS_inv_app' in K. apply Nx. tauto. }
    exists pre, x, (s1 ++ y :: s2). split; [reflexivity|]. split; [exact St|]. split; [exact Nx|]. split.
    + intros Nin. apply (next_lemma gt irr tr tot); [exact Sg| |].
      * destruct (tot x y) as [->|[K|K]]; [|exact K|]. { exfalso; apply Nin, in_or_app; right; left; reflexivity. } unfold gt in K. congruence.
      * intros z Hz'. apply asym, conv, Hz, Hz'.
    + intros Hin. assert (y = x) as ->.
      { apply in_app_or in Hin. destruct Hin as [Hin|[Hin|Hin]]; [|exact Hin|].
        - destruct (SS_inv_app' _ _ _ St) as (_ & _ & C). specialize (C x y Hin (or_introl eq_refl)). unfold lt in C. congruence.
        - specialize (Hz x Hin). apply conv in Hz. rewrite Irr in Hz. discriminate. }
      split; [reflexivity|]. clear - irr Sg. intros L.
      assert (L' : lex gt (x :: s1 ++ x :: s2) (x :: rev (s1 ++ x :: s2))).
      { induction pre as [|u pre IH]; [exact L|]. simpl in L. inversion L as [? ? ? ? K|]; subst; [destruct (irr _ K)|auto]. }
      inversion L' as [? ? ? ? K|]; subst; [exact (irr _ K)|]. eapply (antisorted_greatest gt irr); [exact Sg|apply Permutation_rev|eassumption].
Qed.
Print Assumptions C37_prev_permutation_duplicates_partial.
(** both cases occur with equal elements; the code answers True for the arrangement [2;1;2;3], but the result is above it *)
Example C37_duplicates_case :
  prev_permutation Z.ltb [2; 3; 2; 1] 0 3 = Ret (true, [2; 3; 1; 2]) /\ prev_permutation Z.ltb [1; 1; 3; 2] 0 3 = Ret (true, [1; 1; 2; 3]) /\
  prev_permutation Z.ltb [2; 1; 2; 3] 0 3 = Ret (true, [2; 3; 2; 1]) /\ prev_permutation Z.ltb [1; 2; 4] 0 2 = Ret (false, [4; 2; 1]).
Proof. repeat apply conj; vm_compute; reflexivity. Qed.

(** C21. pick_pivot_element is given the array itself. If, for every range it is asked about, it only rearranges that range and returns a value tied
    with the last cell of the range it leaves (in particular the last cell itself), quick_sort sorts. A picker that does not change the array is
    the model of SortModel. *)
Theorem C21_quick_sort_pick_swapping_partial : forall (A : Type) (comp : A -> A -> bool) (le : A -> A -> Prop)
    (pick : Z -> Z -> list (option A) -> res (list (option A) * option A)) (a : list (option A)) (s e : Z),
  decides comp le -> 0 <= s -> s <= e -> e < len a ->
  (forall low high b, s <= low -> low <= high -> high <= e -> len b = len a ->
     exists b' x, pick low high b = Ret (b', x) /\ rearranged None b low high b' /\
       none_last le x (zn None b' high) /\ none_last le (zn None b' high) x) ->
  exists b, quick_sort_mut comp pick a s e = Ret b /\ sorts le a s e b.
Proof. intros A comp le pick a s e D H1 H2 H3 Hp. apply wp_ex. exact (quick_mut_ok comp le D pick a s e H1 H2 H3 Hp). Qed.
Print Assumptions C21_quick_sort_pick_swapping_partial.
Theorem C21_quick_sort_pick_last_partial : forall (A : Type) (comp : A -> A -> bool) (le : A -> A -> Prop)
    (pick : Z -> Z -> list (option A) -> res (option A)) (a : list (option A)) (s e : Z),
  decides comp le -> 0 <= s -> s <= e -> e < len a ->
  (forall low high b, s <= low -> low <= high -> high <= e -> len b = len a ->
     exists x, pick low high b = Ret x /\ none_last le x (zn None b high) /\ none_last le (zn None b high) x) ->
  quick_sort_mut comp (fun low high b => x <- pick low high b ;; Ret (b, x)) a s e = quick_sort comp pick a s e /\
  exists b, quick_sort comp pick a s e = Ret b /\ sorts le a s e b.
Proof.
  intros A comp le pick a s e D H1 H2 H3 Hp. split; [apply quick_mut_pure|]. rewrite <- quick_mut_pure.
  apply wp_ex. apply (quick_mut_ok comp le D); try assumption. intros lo hi b K1 K2 K3 K4. destruct (Hp lo hi b K1 K2 K3 K4) as (x & E & T1 & T2).
  exists b, x. rewrite E. split; [reflexivity|]. split; [apply rearr_refl|]. split; assumption.
Qed.
Print Assumptions C21_quick_sort_pick_last_partial.
(** the usual picker: swap the middle cell to the end of the range and return it *)
Definition middle_to_end (low high : Z) (b : list (option Z)) : res (list (option Z) * option Z) :=
  b' <- swap b ((low + high) / 2) high ;; x <- aget b' high ;; Ret (b', x).
Example C21_swapping_case : (forall low high b, 0 <= low -> low <= high -> high <= 6 -> len b = 7 ->
     exists b' x, middle_to_end low high b = Ret (b', x) /\ rearranged None b low high b' /\
       none_last Z.le x (zn None b' high) /\ none_last Z.le (zn None b' high) x) /\
  quick_sort_mut Z.leb middle_to_end [Some 2; None; Some 9; Some 4; Some 2; Some 7; Some 1] 0 6 = Ret [Some 1; Some 2; Some 2; Some 4; Some 7; Some 9; None].
Proof.
  split; [|vm_compute; reflexivity]. intros low high b H1 H2 H3 H4.
  assert (M : low <= (low + high) / 2 <= high). { split; [apply Z.div_le_lower_bound; lia|apply Z.div_le_upper_bound; lia]. }
  assert (L : len (swapz None b ((low + high) / 2) high) = 7) by (rewrite len_swapz; lia).
  exists (swapz None b ((low + high) / 2) high), (zn None (swapz None b ((low + high) / 2) high) high).
  split; [|split; [apply rearr_swap; lia|destruct (zn None _ high); split; simpl; auto; lia]].
  unfold middle_to_end. rewrite (swap_ok _ None) by lia. cbn [bind]. rewrite (aget_ok _ None) by lia. reflexivity.
Qed.
