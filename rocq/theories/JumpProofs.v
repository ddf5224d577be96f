(** jump_search with a start: exact when the value does not occur before the start. *)
From Verif Require Import Base SortModel SearchModel SearchSpec SearchProofs.

Section J.
  Context {A : Type} (d : A) (eqb comp : A -> A -> bool) (le : A -> A -> Prop).
  Context (Heq : forall x y, eqb x y = true <-> x = y) (TO : total_order le).
  (** what the first loop needs: nothing at or below a cell smaller than v is v, and
      a cell not smaller than v that has v above it is v *)
  Lemma jump_gen (a : list A) (v : A) s e : 0 <= s -> s <= e -> e < len a ->
    (forall i, 0 <= i <= e -> comp (zn d a i) v = true -> forall j, 0 <= j <= i -> zn d a j <> v) ->
    (forall i, 0 <= i <= e -> comp (zn d a i) v = false -> forall j, i < j <= e -> zn d a j = v -> zn d a i = v) ->
    wp (jump_search eqb comp a v s e) (fun r => (forall i, r = Some i -> 0 <= i <= e /\ zn d a i = v) /\
      (r = None -> (forall j, 0 <= j < s -> zn d a j <> v) -> forall j, s <= j <= e -> zn d a j <> v)).
  Proof.
    intros Hs Hse He below above. unfold jump_search. destruct (Z.ltb_spec (e - s + 1) 0); [lia|].
    set (st := Z.sqrt (e - s + 1)). assert (Hst : 1 <= st) by (unfold st; change (Z.sqrt 1 <= Z.sqrt (e - s + 1)); apply Z.sqrt_le_mono; lia).
    cbv zeta. apply wp_bind.
    eapply wp_mono.
    - apply (wp_while _ _ (fun '(p, c) => 0 <= p /\ p <= e /\ 0 <= c /\ (p = s \/ (p < c /\ forall j, 0 <= j <= p -> zn d a j <> v)))
               (fun '(p, c) => Z.to_nat (e + 1 - c))
               (fun r => match r with
                         | None => forall j, 0 <= j <= e -> zn d a j <> v
                         | Some (p, c) => 0 <= p /\ p <= e /\ 0 <= c /\ (p = s \/ (p < c /\ forall j, 0 <= j <= p -> zn d a j <> v)) /\
                                          comp (zn d a (Z.min c e)) v = false end)).
      + intros [p c] (Hp0 & Hpe & Hpc & Hbelow). apply wp_bind. apply (wp_aget _ d); [lia|].
        destruct (comp (zn d a (Z.min c e)) v) eqn:Ec.
        * destruct (Z.ltb_spec e c); apply wp_ret.
          -- intros j Hj. apply (below (Z.min c e)); [lia|exact Ec|lia].
          -- split; [|lia]. split; [lia|]. split; [lia|]. split; [lia|]. right. split; [lia|]. intros j Hj.
             apply (below (Z.min c e)); [lia|exact Ec|lia].
        * apply wp_ret. auto.
      + repeat split; try lia.
      + lia.
    - intros [[p c]|].
      + intros (Hp0 & Hpe & Hpc & Hbelow & Hc).
        apply (wp_while _ _ (fun q => p <= q /\ forall j, p <= j < q -> zn d a j <> v) (fun q => Z.to_nat (Z.min c e - q + 1))).
        * intros q (Hq & Hno). destruct (Z.leb_spec q (Z.min c e)).
          -- apply wp_bind. apply (wp_aget _ d); [lia|]. destruct (eqb (zn d a q) v) eqn:E.
             ++ apply Heq in E. apply wp_ret. split; [|discriminate]. intros i [= <-]. split; [lia|exact E].
             ++ assert (Hne : zn d a q <> v) by (intros X; apply Heq in X; congruence). apply wp_ret. split; [|lia]. split; [lia|]. intros j Hj.
                destruct (Z.eq_dec j q) as [->|]; [exact Hne|apply Hno; lia].
          -- apply wp_ret. split; [discriminate|]. intros _ Hbef j Hj Ej.
             assert (Hj' : j < p \/ p <= j <= Z.min c e \/ Z.min c e < j) by lia. destruct Hj' as [K|[K|K]].
             ++ destruct Hbelow as [->|[_ Hb]]; [lia|]. apply (Hb j); [lia|exact Ej].
             ++ apply (Hno j); [lia|exact Ej].
             ++ assert (M : zn d a (Z.min c e) = v) by (apply (above (Z.min c e) ltac:(lia) Hc j); [lia|exact Ej]).
                destruct (Z.le_gt_cases p (Z.min c e)); [apply (Hno (Z.min c e)); [lia|exact M]|].
                destruct Hbelow as [->|[Hb _]]; [|lia]. apply (Hbef (Z.min c e)); [lia|exact M].
        * split; [lia|]. intros j Hj. lia.
        * lia.
      + intros Hn. apply wp_ret. split; [discriminate|]. intros _ _ j Hj. apply Hn. lia.
  Qed.
  Lemma jump_from (a : list A) (v : A) s e : orders comp le -> (forall x, comp x x = false) -> 0 <= s -> s <= e -> e < len a -> ascending d le a 0 e ->
    wp (jump_search eqb comp a v s e) (fun r => (forall i, r = Some i -> 0 <= i <= e /\ zn d a i = v) /\
      ((forall j, 0 <= j < s -> zn d a j <> v) -> some_index (fun i => zn d a i = v) s e r)).
  Proof.
    intros OR Hirr Hs Hse He Hsort. eapply wp_mono; [apply jump_gen; try assumption|].
    - intros i Hi Hc j Hj Ej. assert (Hne : zn d a i <> v) by (intros Q; rewrite Q, Hirr in Hc; discriminate).
      apply OR in Hc; [|exact Hne]. apply Hne. apply (to_antisym le TO); [exact Hc|]. rewrite <- Ej. apply Hsort; lia.
    - intros i Hi Hc j Hj Ej. assert (le (zn d a i) v) by (rewrite <- Ej; apply Hsort; lia).
      assert (le v (zn d a i)).
      { destruct (to_total le TO v (zn d a i)) as [?|Hx]; [assumption|].
        destruct (eqb v (zn d a i)) eqn:Eb; [apply Heq in Eb; rewrite <- Eb; destruct (to_total le TO v v); assumption|].
        assert (v <> zn d a i) by (intros X; apply Heq in X; congruence). apply OR in Hx; [congruence|congruence]. }
      apply (to_antisym le TO); auto.
    - intros r (H1 & H2). split; [exact H1|]. intros Hb. destruct r as [i|]; cbn.
      + destruct (H1 i eq_refl) as [Hi Ei]. split; [|exact Ei]. destruct (Z.le_gt_cases s i); [lia|]. exfalso. apply (Hb i); [lia|exact Ei].
      + apply H2; auto.
  Qed.
End J.
