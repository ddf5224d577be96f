(** Proofs about the C++ searches and is_ordered. *)
From Verif Require Import Base SortModel SortSpec SearchModel SearchSpec SearchProofs CppModel CppProofs.

Section S.
  Context {A : Type} (eqb : A -> A -> bool) (le : A -> A -> bool) (tc : option (A -> A -> pyobj)).
  Notation arr := (list (option A)).
  Notation "a $ i" := (zn None a i) (at level 9, format "a $ i").
  Notation eff := (eff le tc).

  Lemma wrap_end e n : -1 <= e < n -> n < word -> u64 (u64 e + 1) = e + 1.
  Proof.
    intros H1 H2. destruct (Z.eq_dec e (-1)) as [->|]; [reflexivity|]. rewrite (u64_id e) by lia. apply u64_id. lia.
  Qed.

  Lemma is_ordered_same (a : arr) s e : 0 <= s -> s + 1 < word -> -1 <= e < len a -> len a < word ->
    cpp_is_ordered_impl le a s (u64 e) tc = is_ordered eff a s e.
  Proof.
    intros Hs Hsw He Hn. unfold cpp_is_ordered_impl, is_ordered. rewrite (wrap_end e (len a)) by lia. rewrite u64_id by lia.
    f_equal. apply for_find_same. intros i Hi. apply zrange_in in Hi. rewrite u64_id by lia.
    rewrite (cget_ok _ None a i), (cget_ok _ None a (i - 1)), (aget_ok _ None a i), (aget_ok _ None a (i - 1)) by lia. cbn [bind].
    destruct (a$i), (a$(i - 1)); reflexivity.
  Qed.

  Lemma linear_same (a : arr) (v : A) s e : 0 <= s -> -1 <= e < len a -> len a < word ->
    for_find (zrange s (u64 (u64 e + 1))) (fun i => u <- cget a i ;; Ret (if ceq eqb u v then Some i else None)) = linear_search eqb a v s e.
  Proof.
    intros Hs He Hn. unfold linear_search. rewrite (wrap_end e (len a)) by lia. apply for_find_same. intros i Hi.
    apply zrange_in in Hi. rewrite (cget_ok _ None a i), (aget_ok _ None a i) by lia. cbn [bind]. destruct (a$i); reflexivity.
  Qed.

  Context (Heq : forall x y, eqb x y = true <-> x = y).
  Definition oeqb (u v : option A) : bool := match u, v with Some x, Some y => eqb x y | None, None => true | _, _ => false end.
  Lemma oeqb_ok u v : oeqb u v = true <-> u = v.
  Proof.
    destruct u, v; cbn; try rewrite Heq; split; intros H; try congruence; try discriminate. 
  Qed.
  Context (leA : A -> A -> Prop) (TO : total_order leA) (OR : orders eff leA).
  Lemma none_last_total : total_order (none_last leA).
  Proof.
    constructor.
    - intros [x|] [y|] [z|]; cbn; intros; try contradiction; auto. eapply (to_trans leA TO); eassumption.
    - intros [x|] [y|]; cbn; intros; try contradiction; auto. f_equal. eapply (to_antisym leA TO); eassumption.
    - intros [x|] [y|]; cbn; auto. apply (to_total leA TO).
  Qed.
  Lemma none_last_orders : orders (ccomp le tc) (none_last leA).
  Proof.
    intros [x|] [y|] N; cbn; try (split; intros; (reflexivity || exact I || discriminate || contradiction)).
    apply OR. congruence.
  Qed.

  Lemma quot_rem_mid l r : 0 <= l -> 0 <= r -> Z.quot l 2 + Z.quot r 2 + Z.rem (Z.rem l 2 * r) 2 = (l + r) / 2.
  Proof.
    intros Hl Hr. rewrite (Z.rem_mod_nonneg l 2), (Z.quot_div_nonneg l 2), (Z.quot_div_nonneg r 2) by lia.
    pose proof (Z.mod_pos_bound l 2). rewrite Z.rem_mod_nonneg by (try apply Z.mul_nonneg_nonneg; lia). apply middle_eq.
  Qed.

  Lemma cpp_binary_ok (a : arr) (v : A) s e : 0 <= s -> -1 <= e < len a -> s < 2 ^ 31 -> len a < 2 ^ 31 -> sorted_range leA a s e ->
    wp (while_loop (S (Z.to_nat (s32 (u64 e) - s32 s + 1))) (fun '(left_, right_) =>
      if left_ <=? right_ then
        let middle := Z.quot left_ 2 + Z.quot right_ 2 + Z.rem (Z.rem left_ 2 * right_) 2 in
        u <- cget a middle ;;
        if ceq eqb u v then Ret (Break (Some middle))
        else if ccomp le tc u (Some v) then Ret (Next (middle + 1, right_)) else Ret (Next (left_, middle - 1))
      else Ret (Break None)) (s32 s, s32 (u64 e))) (some_index (fun i => a$i = Some v) s e).
  Proof.
    intros Hs He Hs31 Hn HA.
    assert (Ee : s32 (u64 e) = e).
    { destruct (Z.eq_dec e (-1)) as [->|]; [reflexivity|]. rewrite u64_id by (rewrite word_val; lia). apply s32_id. lia. }
    rewrite Ee, (s32_id s) by lia.
    pose proof (binary_search_ok None oeqb (ccomp le tc) (none_last leA) oeqb_ok none_last_total a (Some v) s e none_last_orders Hs ltac:(lia) HA) as W.
    unfold binary_search in W.
    match type of W with wp (while_loop _ ?g _) _ => rewrite (while_same _ _ (fun p => s <= fst p /\ snd p <= e) _ g) end; [exact W| | |].
    - intros [l r] [Hl Hr]. cbn [fst snd] in *.
      destruct (Z.leb_spec l r); [|reflexivity]. rewrite quot_rem_mid, middle_eq by lia.
      unfold cget. destruct (aget a ((l + r) / 2)) as [u| |]; reflexivity.
    - intros [l r] [l' r'] [Hl Hr]. cbn [fst snd] in *. destruct (Z.leb_spec l r); [|discriminate]. rewrite middle_eq.
      assert (Hm : l <= (l + r) / 2 <= r) by (split; [apply Z.div_le_lower_bound|apply Z.div_le_upper_bound]; lia).
      cbv zeta. destruct (aget a _) as [u| |]; try discriminate. cbn [bind]. destruct (oeqb _ _); [discriminate|].
      destruct (ccomp _ _ _ _); intros [= <- <-]; lia.
    - cbn. lia.
  Qed.

  Lemma cpp_jump_ok (a : arr) (v : A) s e : 0 <= s -> s <= e -> e < len a -> len a < 2 ^ 31 -> sorted_range leA a s e ->
    wp (let step := s32 (Z.sqrt (u64 (e - s + 1))) in
    u <- cget a (s32 s) ;;
    prev <- while_loop (S (length a)) (fun '(prev, element_pos, u) =>
        if (u64 element_pos <=? e) && ccomp le tc u (Some v) then
          let prev := element_pos in
          let element_pos := element_pos + step in
          if e <? u64 element_pos then Ret (Break prev)
          else u <- cget a element_pos ;; Ret (Next (prev, element_pos, u))
        else Ret (Break prev)) (s32 s, s32 s, u) ;;
    while_loop (S (length a)) (fun prev =>
      if u64 prev <=? e then
        u <- cget a prev ;;
        if ceq eqb u v then Ret (Break (Some prev)) else Ret (Next (prev + 1))
      else Ret (Break None)) prev) (some_index (fun i => a$i = Some v) s e).
  Proof.
    intros Hs Hse He Hn HA. assert (Hw : 2 ^ 40 < word) by (rewrite word_val; lia).
    rewrite u64_id by lia. pose proof (Z.sqrt_spec (e - s + 1) ltac:(lia)) as Hq. pose proof (Z.sqrt_nonneg (e - s + 1)) as Hq0.
    pose proof (Z.sqrt_le_lin (e - s + 1) ltac:(lia)) as Hq1.
    cbv zeta in Hq. assert (Hq2 : 1 <= Z.sqrt (e - s + 1)) by (destruct (Z.eq_dec (Z.sqrt (e - s + 1)) 0) as [E0|]; [rewrite E0 in Hq; change (0 * 0) with 0 in Hq; change (Z.succ 0 * Z.succ 0) with 1 in Hq; lia|lia]).
    rewrite (s32_id (Z.sqrt _)), (s32_id s) by lia. set (step := Z.sqrt (e - s + 1)) in *. clearbody step. cbv zeta.
    rewrite (cget_ok _ None) by lia. cbn [bind]. apply wp_bind.
    (* the skipped part holds only smaller cells, or the value is at [prev] *)
    apply (wp_while _ _ (fun p => let '(prev, pos, u) := p in s <= prev <= e /\ s <= pos <= e /\ u = a$pos /\ prev <= pos /\
             (forall i, s <= i < prev -> a$i = Some v -> a$prev = Some v) /\ (pos = prev \/ pos = prev + step))
           (fun p => let '(prev, pos, u) := p in Z.to_nat (e - pos))).
    - intros [[prev pos] u] (H1 & H2 & -> & H3 & H4 & H5). rewrite (u64_id pos) by lia.
      destruct (Z.leb_spec pos e); [|lia]. cbn [andb].
      assert (Hfin : forall prev : Z, s <= prev <= e -> (forall i, s <= i < prev -> a$i = Some v -> a$prev = Some v) ->
        wp (while_loop (S (length a)) (fun prev => if u64 prev <=? e then u <- cget a prev ;; if ceq eqb u v then Ret (Break (Some prev)) else Ret (Next (prev + 1))
            else Ret (Break None)) prev) (some_index (fun i => a$i = Some v) s e)).
      { clear prev pos H1 H2 H3 H4 H5 H. intros prev Hp Hpr.
        apply (wp_while _ _ (fun q => prev <= q <= e + 1 /\ forall i, prev <= i < q -> a$i <> Some v) (fun q => Z.to_nat (e + 1 - q))).
        - intros q [Hq' Hno]. rewrite u64_id by lia. destruct (Z.leb_spec q e).
          + rewrite (cget_ok _ None) by lia. cbn [bind]. destruct (ceq eqb (a$q) v) eqn:Ec.
            * apply wp_ret. cbn [some_index]. split; [lia|]. destruct (a$q); [|discriminate]. cbn in Ec. apply Heq in Ec. congruence.
            * cbn [wp]. split; [|lia]. split; [lia|]. intros i Hi. destruct (Z.eq_dec i q) as [->|]; [|apply Hno; lia].
              intros F. rewrite F in Ec. cbn in Ec. assert (eqb v v = true) by (apply Heq; reflexivity). congruence.
          + apply wp_ret. cbn [some_index]. intros j Hj Ej. destruct (Z_lt_le_dec j prev).
            * apply (Hno prev); [lia|]. apply (Hpr j); [lia|exact Ej].
            * apply (Hno j); [lia|exact Ej].
        - split; [lia|]. intros; lia.
        - unfold len in *. lia. }
      destruct (ccomp le tc (a$pos) (Some v)) eqn:Ec.
      + assert (Hpos : forall i, s <= i < pos -> a$i = Some v -> a$pos = Some v).
        { intros i Hi Ei. pose proof (HA i pos ltac:(lia) ltac:(lia) ltac:(lia)) as Hle. rewrite Ei in Hle.
          destruct (a$pos) as [x|] eqn:Ex; [|cbn in Ec; discriminate]. cbn in Hle, Ec.
          destruct (eqb x v) eqn:Exv; [apply Heq in Exv; congruence|]. assert (Nx : x <> v) by (intros F; apply Heq in F; congruence).
          f_equal. apply (to_antisym leA TO); [|exact Hle]. apply OR; [exact Nx|]. exact Ec. }
        rewrite u64_id by lia. destruct (Z.ltb_spec e (pos + step)).
        * cbn [wp]. apply Hfin; [lia|exact Hpos].
        * rewrite (cget_ok _ None) by lia. cbn [bind wp]. split; [|lia]. split; [lia|]. split; [lia|]. split; [reflexivity|]. split; [lia|].
          split; [exact Hpos|right; reflexivity].
      + cbn [wp]. apply Hfin; [lia|exact H4].
    - split; [lia|]. split; [lia|]. split; [reflexivity|]. split; [lia|]. split; [intros; lia|left; reflexivity].
    - unfold len in *. lia.
  Qed.
End S.
