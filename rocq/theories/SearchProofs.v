(** Proofs about linear_search, binary_search, jump_search, lower_bound, upper_bound, is_ordered. *)
From Verif Require Import Base SortModel SearchModel SearchSpec.

Lemma for_find_spec B R (l : list B) (body : B -> res (option R)) (P : B -> R -> Prop) (N : B -> Prop) :
  (forall i, In i l -> wp (body i) (fun r => match r with Some x => P i x | None => N i end)) ->
  wp (for_find l body) (fun r => match r with
    | Some x => exists pre i post, l = pre ++ i :: post /\ P i x /\ forall j, In j pre -> N j
    | None => forall j, In j l -> N j end).
Proof.
  induction l as [|i l IH]; intros H; cbn [for_find].
  - apply wp_ret. intros j [].
  - apply wp_bind. eapply wp_mono; [apply (H i); left; reflexivity|]. intros [x|] Hx.
    + apply wp_ret. exists [], i, l. repeat split; auto. intros j [].
    + eapply wp_mono; [apply IH; intros; apply H; right; assumption|]. intros [y|] Hy.
      * destruct Hy as (pre & k & post & -> & Pk & Hn). exists (i :: pre), k, post. repeat split; auto.
        intros j [->|Hj]; auto.
      * intros j [->|Hj]; auto.
Qed.

Lemma zrange_app_inv lo hi pre i post : zrange lo hi = pre ++ i :: post ->
  pre = zrange lo i /\ lo <= i < hi.
Proof.
  intros E. assert (Hi : In i (zrange lo hi)) by (rewrite E; apply in_or_app; right; left; reflexivity).
  apply zrange_in in Hi. split; [|exact Hi].
  assert (Hn : nth_error (zrange lo hi) (length pre) = Some i) by (rewrite E, nth_error_app2, Nat.sub_diag by lia; reflexivity).
  assert (Hl : length (zrange lo hi) = (length pre + S (length post))%nat) by (rewrite E, app_length; reflexivity).
  rewrite zrange_length in Hl.
  unfold zrange in Hn. rewrite nth_error_map in Hn.
  destruct (nth_error (seq 0 (Z.to_nat (hi - lo))) (length pre)) as [k|] eqn:Ek; [|discriminate]. simpl in Hn.
  assert (k = length pre).
  { apply (nth_error_nth _ _ 0%nat) in Ek. rewrite seq_nth in Ek by lia. lia. }
  subst k. assert (Ei : i = lo + Z.of_nat (length pre)) by congruence.
  assert (F : firstn (length pre) (zrange lo hi) = pre) by (rewrite E, firstn_app, Nat.sub_diag, firstn_all; simpl; apply app_nil_r).
  rewrite <- F. rewrite (zrange_split lo i hi) by lia. rewrite firstn_app.
  rewrite zrange_length. replace (length pre - Z.to_nat (i - lo))%nat with O by lia. simpl. rewrite app_nil_r.
  rewrite firstn_all2; [reflexivity|]. rewrite zrange_length. lia.
Qed.

Section S.
  Context {A : Type} (d : A) (eqb comp : A -> A -> bool) (le : A -> A -> Prop).
  Context (Heq : forall x y, eqb x y = true <-> x = y).

  Lemma eqb_false x y : eqb x y = false -> x <> y.
  Proof. intros E F. apply Heq in F. congruence. Qed.

  Lemma linear_search_ok (a : list (option A)) (v : A) s e : 0 <= s -> e < len a ->
    wp (linear_search eqb a v s e) (first_index (fun i => zn None a i = Some v) s e).
  Proof.
    intros Hs He. unfold linear_search.
    eapply wp_mono; [apply for_find_spec with (P := fun i x => x = i /\ zn None a i = Some v) (N := fun i => zn None a i <> Some v)|].
    - intros i Hi. apply zrange_in in Hi. apply wp_bind. apply (wp_aget _ None); [lia|]. apply wp_ret.
      destruct (zn None a i) as [x|]; [|discriminate]. destruct (eqb x v) eqn:E.
      + apply Heq in E. subst; auto.
      + apply eqb_false in E. congruence.
    - intros [x|]; simpl.
      + intros (pre & i & post & E & (-> & Hv) & Hn). apply zrange_app_inv in E. destruct E as [-> Hi].
        repeat split; [lia|lia|exact Hv|]. intros j Hj. apply Hn, zrange_in, Hj.
      + intros Hn j Hj. apply Hn, zrange_in. lia.
  Qed.

  Lemma middle_eq l r : l / 2 + r / 2 + (l mod 2 * r) mod 2 = (l + r) / 2.
  Proof.
    pose proof (Z.div_mod l 2). pose proof (Z.div_mod r 2).
    pose proof (Z.mod_pos_bound l 2). pose proof (Z.mod_pos_bound r 2).
    rewrite Z.mul_mod_idemp_l by lia.
    assert (El : l mod 2 = 0 \/ l mod 2 = 1) by lia. assert (Er : r mod 2 = 0 \/ r mod 2 = 1) by lia.
    rewrite Z.mul_mod by lia.
    assert (G : (l + r) / 2 = l / 2 + r / 2 + (l mod 2 + r mod 2) / 2).
    { replace (l + r) with ((l mod 2 + r mod 2) + (l / 2 + r / 2) * 2) by lia. rewrite Z.div_add by lia. lia. }
    rewrite G. destruct El as [-> | ->], Er as [-> | ->]; reflexivity.
  Qed.

  Context (TO : total_order le).
  Lemma le_refl' x : le x x.
  Proof. destruct (to_total le TO x x); auto. Qed.

  Lemma binary_search_ok (a : list A) (v : A) s e : orders comp le -> 0 <= s -> e < len a -> ascending d le a s e ->
    wp (binary_search eqb comp a v s e) (some_index (fun i => zn d a i = v) s e).
  Proof.
    intros OR Hs He Hsort. unfold binary_search.
    apply (wp_while _ _ (fun '(l, r) => s <= l /\ r <= e /\ (forall i, s <= i <= e -> zn d a i = v -> l <= i <= r))
             (fun '(l, r) => Z.to_nat (r - l + 1))).
    - intros [l r] (Hl & Hr & Hin). destruct (Z.leb_spec l r) as [Hlr|Hlr].
      + rewrite middle_eq. set (m := (l + r) / 2).
        assert (Hm : l <= m <= r) by (unfold m; split; [apply Z.div_le_lower_bound|apply Z.div_le_upper_bound]; lia).
        cbv zeta. apply wp_bind. apply (wp_aget _ d); [lia|].
        destruct (eqb (zn d a m) v) eqn:E.
        * apply Heq in E. apply wp_ret. simpl. split; [lia|exact E].
        * apply eqb_false in E. destruct (comp (zn d a m) v) eqn:Ec; apply wp_ret.
          -- apply OR in Ec; [|exact E]. split; [|lia]. repeat split; try lia; destruct (Hin i); auto; try lia.
             assert (m <= i \/ i < m) as [?|Hi] by lia; [assert (i <> m) by congruence; lia|].
             exfalso. apply E. apply (to_antisym le TO); [exact Ec|]. subst v. apply Hsort; lia.
          -- assert (Hle : le v (zn d a m)).
             { destruct (to_total le TO v (zn d a m)) as [?|H]; [assumption|]. apply OR in H; [congruence|exact E]. }
             split; [|lia]. repeat split; try lia; destruct (Hin i); auto; try lia.
             assert (i <= m \/ m < i) as [?|Hi] by lia; [assert (i <> m) by congruence; lia|].
             exfalso. apply E. apply (to_antisym le TO); [|exact Hle]. subst v. apply Hsort; lia.
      + apply wp_ret. simpl. intros j Hj Ej. specialize (Hin j Hj Ej). lia.
    - repeat split; lia.
    - lia.
  Qed.

  Lemma jump_search_ok (a : list A) (v : A) e : orders comp le -> (forall x, comp x x = false) ->
    0 <= e < len a -> ascending d le a 0 e ->
    wp (jump_search eqb comp a v 0 e) (some_index (fun i => zn d a i = v) 0 e).
  Proof.
    intros OR Hirr He Hsort. unfold jump_search. destruct (Z.ltb_spec (e - 0 + 1) 0); [lia|].
    set (st := Z.sqrt (e - 0 + 1)). assert (Hst : 1 <= st) by (unfold st; change (Z.sqrt 1 <= Z.sqrt (e - 0 + 1)); apply Z.sqrt_le_mono; lia).
    cbv zeta. apply wp_bind.
    assert (below : forall i, 0 <= i <= e -> comp (zn d a i) v = true -> forall j, 0 <= j <= i -> zn d a j <> v).
    { intros i Hi Hc j Hj Ej. assert (Hne : zn d a i <> v) by (intros Q; rewrite Q, Hirr in Hc; discriminate).
      apply OR in Hc; [|exact Hne]. apply Hne. apply (to_antisym le TO); [exact Hc|]. rewrite <- Ej. apply Hsort; lia. }
    assert (above : forall i, 0 <= i <= e -> comp (zn d a i) v = false -> forall j, i < j <= e -> zn d a j = v -> zn d a i = v).
    { intros i Hi Hc j Hj Ej. assert (le (zn d a i) v) by (rewrite <- Ej; apply Hsort; lia).
      assert (le v (zn d a i)).
      { destruct (to_total le TO v (zn d a i)) as [?|Hx]; [assumption|].
        destruct (eqb v (zn d a i)) eqn:Eb; [apply Heq in Eb; rewrite Eb; apply le_refl'|].
        apply eqb_false in Eb. apply OR in Hx; [congruence|congruence]. }
      apply (to_antisym le TO); auto. }
    eapply wp_mono.
    - apply (wp_while _ _ (fun '(p, c) => 0 <= p /\ p <= e /\ p < c /\ (p = 0 \/ forall j, 0 <= j <= p -> zn d a j <> v))
               (fun '(p, c) => Z.to_nat (e + 1 - p))
               (fun r => match r with
                         | None => forall j, 0 <= j <= e -> zn d a j <> v
                         | Some (p, c) => 0 <= p /\ p <= e /\ p < c /\ (p = 0 \/ forall j, 0 <= j <= p -> zn d a j <> v) /\
                                          comp (zn d a (Z.min c e)) v = false end)).
      + intros [p c] (Hp0 & Hpe & Hpc & Hbelow). apply wp_bind. apply (wp_aget _ d); [lia|].
        destruct (comp (zn d a (Z.min c e)) v) eqn:Ec.
        * destruct (Z.ltb_spec e c); apply wp_ret.
          -- intros j Hj. apply (below (Z.min c e)); [lia|exact Ec|lia].
          -- split; [|lia]. split; [lia|]. split; [lia|]. split; [lia|]. right. intros j Hj.
             apply (below (Z.min c e)); [lia|exact Ec|lia].
        * apply wp_ret. auto.
      + repeat split; try lia.
      + lia.
    - intros [[p c]|].
      + intros (Hp0 & Hpe & Hpc & Hbelow & Hc).
        apply (wp_while _ _ (fun q => p <= q /\ forall j, p <= j < q -> zn d a j <> v) (fun q => Z.to_nat (Z.min c e - q + 1))).
        * intros q (Hq & Hno). destruct (Z.leb_spec q (Z.min c e)).
          -- apply wp_bind. apply (wp_aget _ d); [lia|]. destruct (eqb (zn d a q) v) eqn:E.
             ++ apply Heq in E. apply wp_ret. simpl. split; [lia|exact E].
             ++ apply eqb_false in E. apply wp_ret. split; [|lia]. split; [lia|]. intros j Hj.
                destruct (Z.eq_dec j q) as [->|]; [exact E|apply Hno; lia].
          -- apply wp_ret. simpl. intros j Hj Ej.
             assert (Hj' : j < p \/ p <= j <= Z.min c e \/ Z.min c e < j) by lia. destruct Hj' as [K|[K|K]].
             ++ destruct Hbelow as [->|Hb]; [lia|]. apply (Hb j); [lia|exact Ej].
             ++ apply (Hno j); [lia|exact Ej].
             ++ apply (Hno (Z.min c e)); [lia|]. apply (above (Z.min c e) ltac:(lia) Hc j); [lia|exact Ej].
        * split; [lia|]. intros j Hj. lia.
        * lia.
      + intros Hn. apply wp_ret. exact Hn.
  Qed.
End S.

Section Bounds.
  Context {A : Type} (d : A) (comp : A -> A -> bool).
  (** comp is a strict weak order (negation is transitive) *)
  Context (NT : forall x y z, comp x y = false -> comp y z = false -> comp x z = false).

  Lemma lower_bound_ok (a : list A) (v : A) s e : 0 <= s -> s <= e -> e <= len a -> s < len a ->
    (forall i j, s <= i -> i <= j -> j < e -> comp (zn d a j) (zn d a i) = false) ->
    wp (lower_bound comp a v s e) (fun r => s <= r <= e /\
       (forall i, s <= i < r -> comp (zn d a i) v = true) /\ (forall i, r <= i < e -> comp (zn d a i) v = false)).
  Proof.
    intros Hs Hse He Hsl Hsort. unfold lower_bound. apply wp_bind. apply (wp_aget _ d); [lia|]. cbv zeta.
    set (ix := if negb (comp (zn d a s) v) then s else e).
    assert (mono : forall i j, s <= i -> i <= j -> j < e -> comp (zn d a i) v = false -> comp (zn d a j) v = false).
    { intros i j H1 H2 H3 Hf. apply (NT _ (zn d a i)); [apply Hsort; lia|exact Hf]. }
    apply (wp_while _ _ (fun '(l, r, index) => s <= l /\ r < e /\ l <= r + 1 /\
              (forall i, s <= i < l -> comp (zn d a i) v = true) /\ (forall i, r < i < e -> comp (zn d a i) v = false) /\
              (index = r + 1 \/ (index = ix /\ r = e - 1)))
             (fun '(l, r, _) => Z.to_nat (r - l + 1))).
    - intros [[l r] index] (Hl & Hr & Hlr & Hlo & Hhi & Hix). destruct (Z.leb_spec l r) as [K|K].
      + set (m := (l + r) / 2).
        assert (Hm : l <= m <= r) by (unfold m; split; [apply Z.div_le_lower_bound|apply Z.div_le_upper_bound]; lia).
        apply wp_bind. apply (wp_aget _ d); [lia|]. destruct (comp (zn d a m) v) eqn:Ec; apply wp_ret.
        * split; [|lia]. split; [lia|]. split; [lia|]. split; [lia|]. split; [|split; [exact Hhi|]].
          -- intros i Hi. destruct (comp (zn d a i) v) eqn:Ei; [reflexivity|].
             rewrite (mono i m) in Ec by (lia || exact Ei). discriminate.
          -- exact Hix.
        * split; [|lia]. split; [lia|]. split; [lia|]. split; [lia|]. split; [exact Hlo|]. split; [|left; lia].
          intros i Hi. apply (mono m i); [lia|lia|lia|exact Ec].
      + apply wp_ret. destruct Hix as [->|[-> Hr']].
        * repeat split; try lia; intros; [apply Hlo; lia|apply Hhi; lia].
        * unfold ix. assert (l = e) by lia. subst l. destruct (comp (zn d a s) v) eqn:E0; cbn [negb].
          -- split; [lia|]. split; [exact Hlo|]. intros; lia.
          -- assert (s = e). { destruct (Z.eq_dec s e); [assumption|]. rewrite (Hlo s) in E0 by lia. discriminate. }
             split; [lia|]. split; intros; lia.
    - split; [lia|]. split; [lia|]. split; [lia|]. split; [intros; lia|]. split; [intros; lia|]. right; auto.
    - lia.
  Qed.

  Lemma upper_bound_ok (a : list A) (v : A) s e : 0 <= s -> s <= e -> e <= len a -> s < len a ->
    (forall i j, s <= i -> i <= j -> j < e -> comp (zn d a j) (zn d a i) = false) ->
    wp (upper_bound comp a v s e) (fun r => s <= r <= e /\
       (forall i, s <= i < r -> comp v (zn d a i) = false) /\ (forall i, r <= i < e -> comp v (zn d a i) = true)).
  Proof.
    intros Hs Hse He Hsl Hsort. unfold upper_bound. apply wp_bind. apply (wp_aget _ d); [lia|]. cbv zeta.
    set (ix := if comp v (zn d a s) then s else e).
    assert (mono : forall i j, s <= i -> i <= j -> j < e -> comp v (zn d a j) = false -> comp v (zn d a i) = false).
    { intros i j H1 H2 H3 Hf. apply (NT _ (zn d a j)); [exact Hf|apply Hsort; lia]. }
    apply (wp_while _ _ (fun '(l, r, index) => s <= l /\ r < e /\ l <= r + 1 /\
              (forall i, s <= i < l -> comp v (zn d a i) = false) /\ (forall i, r < i < e -> comp v (zn d a i) = true) /\
              (index = r + 1 \/ (index = ix /\ r = e - 1)))
             (fun '(l, r, _) => Z.to_nat (r - l + 1))).
    - intros [[l r] index] (Hl & Hr & Hlr & Hlo & Hhi & Hix). destruct (Z.leb_spec l r) as [K|K].
      + set (m := (l + r) / 2).
        assert (Hm : l <= m <= r) by (unfold m; split; [apply Z.div_le_lower_bound|apply Z.div_le_upper_bound]; lia).
        apply wp_bind. apply (wp_aget _ d); [lia|]. destruct (comp v (zn d a m)) eqn:Ec; cbn [negb]; apply wp_ret.
        * split; [|lia]. split; [lia|]. split; [lia|]. split; [lia|]. split; [exact Hlo|]. split; [|left; lia].
          intros i Hi. destruct (comp v (zn d a i)) eqn:Ei; [reflexivity|].
          rewrite (mono m i) in Ec by (lia || exact Ei). discriminate.
        * split; [|lia]. split; [lia|]. split; [lia|]. split; [lia|]. split; [|split; [exact Hhi|exact Hix]].
          intros i Hi. apply (mono i m); [lia|lia|lia|exact Ec].
      + apply wp_ret. destruct Hix as [->|[-> Hr']].
        * repeat split; try lia; intros; [apply Hlo; lia|apply Hhi; lia].
        * unfold ix. assert (l = e) by lia. subst l. destruct (comp v (zn d a s)) eqn:E0.
          -- assert (s = e). { destruct (Z.eq_dec s e); [assumption|]. rewrite (Hlo s) in E0 by lia. discriminate. }
             split; [lia|]. split; intros; lia.
          -- split; [lia|]. split; [exact Hlo|]. intros; lia.
    - split; [lia|]. split; [lia|]. split; [lia|]. split; [intros; lia|]. split; [intros; lia|]. right; auto.
    - lia.
  Qed.

  (** what is_ordered decides on an array without None cells *)
  Lemma is_ordered_ok (l : list A) s e : 0 <= s -> e < len l ->
    wp (is_ordered comp (map Some l) s e) (fun b => b = true <-> forall i, s < i <= e -> comp (zn d l i) (zn d l (i - 1)) = false).
  Proof.
    intros Hs He. unfold is_ordered. apply wp_bind.
    assert (Z1 : forall i, 0 <= i < len l -> zn None (map Some l) i = Some (zn d l i)).
    { intros i Hi. unfold zn. rewrite (nth_indep _ None (Some d)) by (rewrite map_length; unfold len in Hi; lia). apply map_nth. }
    assert (Z2 : len (map Some l) = len l) by (unfold len; rewrite map_length; reflexivity).
    eapply wp_mono; [apply for_find_spec with (P := fun i x => x = false /\ comp (zn d l i) (zn d l (i - 1)) = true)
                       (N := fun i => comp (zn d l i) (zn d l (i - 1)) = false)|].
    - intros i Hi. apply zrange_in in Hi. apply wp_bind. apply (wp_aget _ None); [lia|]. apply wp_bind. apply (wp_aget _ None); [lia|].
      rewrite !Z1 by lia. apply wp_ret. destruct (comp (zn d l i) (zn d l (i - 1))) eqn:E; auto.
    - intros [b|]; intros H; apply wp_ret.
      + destruct H as (pre & i & post & E & (-> & Hc) & _). apply zrange_app_inv in E. destruct E as [_ Hi].
        split; [discriminate|]. intros K. rewrite K in Hc by lia. discriminate.
      + split; [|reflexivity]. intros _ i Hi. apply H, zrange_in. lia.
  Qed.
End Bounds.
