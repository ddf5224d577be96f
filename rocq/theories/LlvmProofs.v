(** Proofs about the LLVM backend: the IR built for bubble_sort, executed block by block, sorts its buffer. *)
From Coq Require Import String.
From Verif Require Import Base SortSpec SortProofs CppModel CppProofs LlvmModel.
Open Scope string_scope.
Open Scope Z_scope.

Definition bub : prog := Eval vm_compute in match build build_bubble_body with Ret p => p | _ => ([], []) end.
Lemma build_bub : build build_bubble_body = Ret bub.
Proof. vm_compute. reflexivity. Qed.
Lemma build_sel : build build_selection_body = Raise AssertionError.
Proof. vm_compute. reflexivity. Qed.

Section Run.
  Context {V : Type} (lt : V -> V -> bool) (d : V).
  Notation "m $ i" := (zn d m i) (at level 9, format "m $ i").
  Notation env := (@env V).

  Definition step (k : Z) : string * string * env * list V -> res (ctl (string * string * env * list V) (list V)) :=
    fun '(from, l, e, m) => ' (next, e', m') <- exec_block lt bub k from l e m ;;
      match next with Some l' => Ret (Next (l, l', e', m')) | None => Ret (Break m') end.
  Lemma run_step k m fuel : run lt fuel bub k m = while_loop fuel (step k) ("", "entry", (fun _ => None), m).
  Proof. reflexivity. Qed.

  Definition agree (ids : list nat) (e e' : env) : Prop := forall i, In i ids -> e' i = e i.

  Ltac blk := unfold exec_block; cbn -[s32 Z.ltb Z.leb Z.add Z.sub cget cset].

  Lemma blk_entry k e m : exists e', exec_block lt bub k "" "entry" e m = Ret (Some (if k <=? 1 then "exit" else "outer"), e', m).
  Proof. blk. eexists. reflexivity. Qed.

  (** the value the phi of "outer" (of "inner") takes *)
  Definition outer_i (from : string) (e : env) (i : Z) : Prop := (from = "entry" /\ i = 0) \/ (from = "outer.latch" /\ e 16%nat = Some (VInt i)).
  Definition inner_j (from : string) (e : env) (j : Z) : Prop := (from = "inner.init" /\ j = 0) \/ (from = "inner.latch" /\ e 15%nat = Some (VInt j)).

  Lemma blk_outer k from e m i : outer_i from e i ->
    exists e', exec_block lt bub k from "outer" e m = Ret (Some (if i <? s32 (k - 1) then "inner.init" else "exit"), e', m) /\
      e' 1%nat = Some (VInt i) /\ e' 2%nat = Some (VInt (s32 (k - 1))).
  Proof.
    intros [[-> ->]|[-> E]]; blk.
    - eexists. split; [reflexivity|]. split; reflexivity.
    - rewrite E. blk. eexists. split; [reflexivity|]. split; reflexivity.
  Qed.
  Lemma blk_inner_init k from e m i n1 : e 1%nat = Some (VInt i) -> e 2%nat = Some (VInt n1) ->
    exists e', exec_block lt bub k from "inner.init" e m = Ret (Some "inner", e', m) /\
      e' 1%nat = Some (VInt i) /\ e' 4%nat = Some (VInt (s32 (n1 - i))).
  Proof. intros E1 E2. blk. rewrite E2, E1. blk. eexists. split; [reflexivity|]. split; [exact E1|reflexivity]. Qed.
  Lemma blk_inner k from e m i j lim : inner_j from e j -> e 1%nat = Some (VInt i) -> e 4%nat = Some (VInt lim) ->
    exists e', exec_block lt bub k from "inner" e m = Ret (Some (if j <? lim then "body" else "outer.latch"), e', m) /\
      e' 1%nat = Some (VInt i) /\ e' 4%nat = Some (VInt lim) /\ e' 5%nat = Some (VInt j).
  Proof.
    intros [[-> ->]|[-> E]] E1 E4; blk.
    - rewrite E4. blk. eexists. split; [reflexivity|]. repeat split; [exact E1|exact E4].
    - rewrite E. blk. rewrite E4. blk. eexists. split; [reflexivity|]. repeat split; [exact E1|exact E4].
  Qed.
  Lemma blk_body k from e m i j lim : e 1%nat = Some (VInt i) -> e 4%nat = Some (VInt lim) -> e 5%nat = Some (VInt j) ->
    0 <= j -> j + 1 < len m -> len m < 2 ^ 31 ->
    exists e', exec_block lt bub k from "body" e m = Ret (Some (if lt (m$(j + 1)) (m$j) then "swap" else "inner.latch"), e', m) /\
      e' 1%nat = Some (VInt i) /\ e' 4%nat = Some (VInt lim) /\ e' 5%nat = Some (VInt j) /\
      e' 10%nat = Some (VPtr j) /\ e' 11%nat = Some (VPtr (j + 1)) /\ e' 12%nat = Some (VElt (m$j)) /\ e' 13%nat = Some (VElt (m$(j + 1))).
  Proof.
    intros E1 E4 E5 H1 H2 H3. blk. rewrite E5. blk. rewrite E5. blk. rewrite !Z.add_0_l.
    rewrite (cget_ok _ d m j) by lia. blk. rewrite s32_id by lia. rewrite ?Z.add_0_l. rewrite (cget_ok _ d m (j + 1)) by lia. blk.
    eexists. split; [reflexivity|]. cbn -[s32 Z.add]. rewrite ?Z.add_0_l. repeat split; auto.
  Qed.
  Lemma blk_swap k from e m i j lim x y : e 1%nat = Some (VInt i) -> e 4%nat = Some (VInt lim) -> e 5%nat = Some (VInt j) ->
    e 10%nat = Some (VPtr j) -> e 11%nat = Some (VPtr (j + 1)) -> e 12%nat = Some (VElt x) -> e 13%nat = Some (VElt y) ->
    0 <= j -> j + 1 < len m ->
    exists e', exec_block lt bub k from "swap" e m = Ret (Some "inner.latch", e', zupd (zupd m j y) (j + 1) x) /\
      e' 1%nat = Some (VInt i) /\ e' 4%nat = Some (VInt lim) /\ e' 5%nat = Some (VInt j).
  Proof.
    intros E1 E4 E5 E10 E11 E12 E13 H1 H2. blk. rewrite E13. blk. rewrite E10. blk. rewrite cset_ok by lia. blk.
    rewrite E12. blk. rewrite E11. blk. rewrite cset_ok by (rewrite len_zupd; lia). blk. eexists. split; [reflexivity|]. auto.
  Qed.
  Lemma blk_inner_latch k from e m i j lim : e 1%nat = Some (VInt i) -> e 4%nat = Some (VInt lim) -> e 5%nat = Some (VInt j) ->
    exists e', exec_block lt bub k from "inner.latch" e m = Ret (Some "inner", e', m) /\
      e' 1%nat = Some (VInt i) /\ e' 4%nat = Some (VInt lim) /\ e' 15%nat = Some (VInt (s32 (j + 1))).
  Proof. intros E1 E4 E5. blk. rewrite E5. blk. eexists. split; [reflexivity|]. auto. Qed.
  Lemma blk_outer_latch k from e m i : e 1%nat = Some (VInt i) ->
    exists e', exec_block lt bub k from "outer.latch" e m = Ret (Some "outer", e', m) /\ e' 16%nat = Some (VInt (s32 (i + 1))).
  Proof. intros E1. blk. rewrite E1. blk. eexists. split; [reflexivity|]. auto. Qed.
  Lemma blk_exit k from e m : exec_block lt bub k from "exit" e m = Ret (None, e, m).
  Proof. blk. reflexivity. Qed.

  Lemma go k fuel from l e m l' e' m' : exec_block lt bub k from l e m = Ret (Some l', e', m') ->
    while_loop (S fuel) (step k) (from, l, e, m) = while_loop fuel (step k) (l, l', e', m').
  Proof. intros E. cbn [while_loop]. unfold step at 1. rewrite E. reflexivity. Qed.

  (** compare and swap at j, j+1; one pass; all passes *)
  Definition cas (m : list V) (j : Z) : list V := if lt (m$(j + 1)) (m$j) then swapz d m j (j + 1) else m.
  Definition pass (m : list V) (j lim : Z) : list V := fold_left cas (zrange j lim) m.
  Definition passes (n1 i : Z) (m : list V) : list V := fold_left (fun m i => pass m 0 (n1 - i)) (zrange i n1) m.
  Lemma len_cas m j : len (cas m j) = len m.
  Proof. unfold cas. destruct (lt _ _); [apply len_swapz|reflexivity]. Qed.
  Lemma len_pass j lim : forall m, len (pass m j lim) = len m.
  Proof.
    unfold pass. generalize (zrange j lim). induction l as [|x l IH]; intros m; [reflexivity|]. cbn [fold_left]. rewrite IH. apply len_cas.
  Qed.

  Lemma inner_loop k i lim : forall t m j e from, t = Z.to_nat (lim - j) -> 0 <= j <= lim -> lim < len m -> len m < 2 ^ 31 ->
    inner_j from e j -> e 1%nat = Some (VInt i) -> e 4%nat = Some (VInt lim) ->
    exists cnt e', (forall f, while_loop (cnt + f) (step k) (from, "inner", e, m) = while_loop f (step k) ("inner", "outer.latch", e', pass m j lim)) /\
      e' 1%nat = Some (VInt i).
  Proof.
    induction t as [|t IH]; intros m j e from Et Hj Hl Hm Hp E1 E4; destruct (blk_inner k from e m i j lim Hp E1 E4) as (e1 & X1 & A1 & A4 & A5).
    - exists 1%nat, e1. split; [|exact A1]. intros f. change (1 + f)%nat with (S f). rewrite (go _ _ _ _ _ _ _ _ _ X1).
      destruct (Z.ltb_spec j lim); [lia|]. unfold pass. rewrite zrange_nil by lia. reflexivity.
    - destruct (Z.ltb_spec j lim) as [Hlt|]; [|lia].
      destruct (blk_body k "inner" e1 m i j lim A1 A4 A5 ltac:(lia) ltac:(lia) Hm) as (e2 & X2 & B1 & B4 & B5 & B10 & B11 & B12 & B13).
      assert (Hc : exists c e3, (forall f, while_loop (c + f) (step k) ("body", (if lt (m$(j + 1)) (m$j) then "swap" else "inner.latch"), e2, m) =
                     while_loop f (step k) ("inner.latch", "inner", e3, cas m j)) /\
                 e3 1%nat = Some (VInt i) /\ e3 4%nat = Some (VInt lim) /\ e3 15%nat = Some (VInt (j + 1))).
      { unfold cas. destruct (lt (m$(j + 1)) (m$j)).
        - destruct (blk_swap k "body" e2 m i j lim _ _ B1 B4 B5 B10 B11 B12 B13 ltac:(lia) ltac:(lia)) as (e3 & X3 & C1 & C4 & C5).
          destruct (blk_inner_latch k "swap" e3 (zupd (zupd m j (m$(j + 1))) (j + 1) (m$j)) i j lim C1 C4 C5) as (e4 & X4 & D1 & D4 & D15).
          rewrite s32_id in D15 by lia. exists 2%nat, e4. split; [|auto]. intros f. change (2 + f)%nat with (S (S f)).
          rewrite (go _ _ _ _ _ _ _ _ _ X3), (go _ _ _ _ _ _ _ _ _ X4). reflexivity.
        - destruct (blk_inner_latch k "body" e2 m i j lim B1 B4 B5) as (e4 & X4 & D1 & D4 & D15).
          rewrite s32_id in D15 by lia. exists 1%nat, e4. split; [|auto]. intros f. change (1 + f)%nat with (S f).
          rewrite (go _ _ _ _ _ _ _ _ _ X4). reflexivity. }
      destruct Hc as (c & e3 & X3 & C1 & C4 & C15).
      destruct (IH (cas m j) (j + 1) e3 "inner.latch" ltac:(lia) ltac:(lia) ltac:(rewrite len_cas; lia) ltac:(rewrite len_cas; lia) (or_intror (conj eq_refl C15)) C1 C4)
        as (cnt & e' & X5 & F1).
      exists (S (S (c + cnt))), e'. split; [|exact F1]. intros f. replace (S (S (c + cnt)) + f)%nat with (S (S (c + (cnt + f)))) by lia.
      rewrite (go _ _ _ _ _ _ _ _ _ X1), (go _ _ _ _ _ _ _ _ _ X2), X3, X5. unfold pass. rewrite (zrange_cons j lim) by lia. reflexivity.
  Qed.

  Lemma outer_loop k : k < 2 ^ 31 -> 2 <= k -> forall t m i e from, t = Z.to_nat (k - 1 - i) -> 0 <= i <= k - 1 -> len m = k -> outer_i from e i ->
    exists cnt, forall f, while_loop (cnt + f) (step k) (from, "outer", e, m) = Ret (passes (k - 1) i m).
  Proof.
    intros Hk Hk2. induction t as [|t IH]; intros m i e from Et Hi Hm Hp; destruct (blk_outer k from e m i Hp) as (e1 & X1 & A1 & A2);
      rewrite (s32_id (k - 1)) in X1, A2 by lia.
    - destruct (Z.ltb_spec i (k - 1)); [lia|]. exists 2%nat. intros f. change (2 + f)%nat with (S (S f)).
      rewrite (go _ _ _ _ _ _ _ _ _ X1). cbn [while_loop]. unfold step. rewrite blk_exit. cbn [bind].
      unfold passes. rewrite zrange_nil by lia. reflexivity.
    - destruct (Z.ltb_spec i (k - 1)); [|lia].
      destruct (blk_inner_init k "outer" e1 m i (k - 1) A1 A2) as (e2 & X2 & B1 & B4). rewrite s32_id in B4 by lia.
      destruct (inner_loop k i (k - 1 - i) (Z.to_nat (k - 1 - i - 0)) m 0 e2 "inner.init" eq_refl ltac:(lia) ltac:(lia) ltac:(lia) (or_introl (conj eq_refl eq_refl)) B1 B4)
        as (c1 & e3 & X3 & C1).
      destruct (blk_outer_latch k "inner" e3 (pass m 0 (k - 1 - i)) i C1) as (e4 & X4 & D16). rewrite s32_id in D16 by lia.
      destruct (IH (pass m 0 (k - 1 - i)) (i + 1) e4 "outer.latch" ltac:(lia) ltac:(lia) ltac:(rewrite len_pass; exact Hm) (or_intror (conj eq_refl D16))) as (c2 & X5).
      exists (S (S (c1 + S c2))). intros f. replace (S (S (c1 + S c2)) + f)%nat with (S (S (c1 + S (c2 + f)))) by lia.
      rewrite (go _ _ _ _ _ _ _ _ _ X1), (go _ _ _ _ _ _ _ _ _ X2), X3, (go _ _ _ _ _ _ _ _ _ X4), X5.
      unfold passes. rewrite (zrange_cons i (k - 1)) by lia. reflexivity.
  Qed.

  Lemma run_passes (m : list V) : len m < 2 ^ 31 ->
    exists cnt, forall fuel, (cnt <= fuel)%nat -> run lt fuel bub (s32 (len m)) m = Ret (passes (len m - 1) 0 m).
  Proof.
    intros Hm. pose proof (len_nonneg _ m). rewrite s32_id by lia. destruct (blk_entry (len m) (fun _ => None) m) as (e1 & X1).
    destruct (Z.leb_spec (len m) 1).
    - exists 2%nat. intros fuel Hf. rewrite run_step. destruct fuel as [|[|f]]; try lia.
      rewrite (go _ _ _ _ _ _ _ _ _ X1). cbn [while_loop]. unfold step. rewrite blk_exit. cbn [bind].
      unfold passes. rewrite zrange_nil by lia. reflexivity.
    - destruct (outer_loop (len m) Hm ltac:(lia) (Z.to_nat (len m - 1 - 0)) m 0 e1 "entry" eq_refl ltac:(lia) eq_refl (or_introl (conj eq_refl eq_refl))) as (c & X2).
      exists (S c). intros fuel Hf. rewrite run_step. destruct fuel as [|f]; [lia|].
      rewrite (go _ _ _ _ _ _ _ _ _ X1). replace f with (c + (f - c))%nat by lia. apply X2.
  Qed.

  (** *** the passes sort *)
  Context (le : V -> V -> Prop) (D : decides (fun x y => negb (lt y x)) le).
  Lemma lt_t x y : lt y x = true -> le y x.
  Proof. intros H. apply (dec_false _ _ D). rewrite H. reflexivity. Qed.
  Lemma lt_f x y : lt y x = false -> le x y.
  Proof. intros H. apply (dec_true _ _ D). rewrite H. reflexivity. Qed.
  Lemma le_refl x : le x x.
  Proof. destruct (lt x x) eqn:E; [apply lt_t|apply lt_f]; exact E. Qed.
  Lemma le_trans x y z : le x y -> le y z -> le x z.
  Proof. apply (dec_trans _ _ D). Qed.

  Lemma pass_ok m lim : 0 <= lim -> lim < len m ->
    rearranged d m 0 lim (pass m 0 lim) /\ forall p, 0 <= p <= lim -> le ((pass m 0 lim)$p) ((pass m 0 lim)$lim).
  Proof.
    intros Hl Hm.
    assert (G : forall t m' j, t = Z.to_nat (lim - j) -> 0 <= j <= lim -> rearranged d m 0 lim m' -> (forall p, 0 <= p <= j -> le (m'$p) (m'$j)) ->
       rearranged d m 0 lim (pass m' j lim) /\ forall p, 0 <= p <= lim -> le ((pass m' j lim)$p) ((pass m' j lim)$lim)).
    { induction t as [|t IH]; intros m' j Et Hj RA Hmax; unfold pass.
      - rewrite zrange_nil by lia. cbn [fold_left]. split; [exact RA|]. intros p Hp. replace lim with j by lia. apply Hmax. lia.
      - rewrite zrange_cons by lia. cbn [fold_left]. fold (pass (cas m' j) (j + 1) lim). pose proof (rearr_len _ _ _ _ _ RA) as Hlen.
        apply IH; [lia|lia| |].
        + unfold cas. destruct (lt _ _); [|exact RA]. eapply rearr_trans; [exact RA|]. apply rearr_swap; lia.
        + intros p Hp. unfold cas. destruct (lt (m'$(j + 1)) (m'$j)) eqn:E.
          * apply lt_t in E. unfold swapz. rewrite (zn_zupd_eq _ d _ (j + 1)) by (rewrite len_zupd; lia).
            destruct (Z.eq_dec p (j + 1)) as [->|]; [rewrite zn_zupd_eq by (rewrite len_zupd; lia); apply le_refl|].
            rewrite zn_zupd_ne by (rewrite ?len_zupd; lia). destruct (Z.eq_dec p j) as [->|]; [rewrite zn_zupd_eq by lia; exact E|].
            rewrite zn_zupd_ne by lia. apply Hmax. lia.
          * apply lt_f in E. destruct (Z.eq_dec p (j + 1)) as [->|]; [apply le_refl|]. eapply le_trans; [apply Hmax; lia|exact E]. }
    apply (G (Z.to_nat (lim - 0)) m 0); [reflexivity|lia|apply rearr_refl|]. intros p Hp. replace p with 0 by lia. apply le_refl.
  Qed.

  Lemma passes_ok m : Permutation m (passes (len m - 1) 0 m) /\
    forall p q, 0 <= p -> p <= q -> q < len m -> le ((passes (len m - 1) 0 m)$p) ((passes (len m - 1) 0 m)$q).
  Proof.
    set (n1 := len m - 1).
    assert (G : forall t m' i, t = Z.to_nat (n1 - i) -> 0 <= i <= Z.max 0 n1 -> rearranged d m 0 n1 m' ->
       (forall p q, 0 <= p <= q -> n1 - i < q <= n1 -> le (m'$p) (m'$q)) ->
       rearranged d m 0 n1 (passes n1 i m') /\ forall p q, 0 <= p <= q -> q <= n1 -> le ((passes n1 i m')$p) ((passes n1 i m')$q)).
    { induction t as [|t IH]; intros m' i Et Hi RA Htop; unfold passes.
      - rewrite zrange_nil by lia. cbn [fold_left]. split; [exact RA|]. intros p q Hp Hq.
        destruct (Z.eq_dec q 0) as [->|]; [replace p with 0 by lia; apply le_refl|]. apply Htop; lia.
      - rewrite zrange_cons by lia. cbn [fold_left]. fold (passes n1 (i + 1) (pass m' 0 (n1 - i))).
        pose proof (rearr_len _ _ _ _ _ RA) as Hlen. destruct (pass_ok m' (n1 - i) ltac:(lia) ltac:(lia)) as [RA1 Hmax].
        apply IH; [lia|lia| |].
        + eapply rearr_trans; [exact RA|]. eapply rearr_weaken; [exact RA1|lia|lia].
        + intros p q Hp Hq. destruct (Z.eq_dec q (n1 - i)) as [->|]; [apply Hmax; lia|].
          rewrite (proj2 RA1 q) by lia.
          apply (rearr_all d (fun v => le v (m'$q)) m' _ 0 (n1 - i) 0 q); try lia; [exact RA1|]. intros p' Hp'. apply Htop; lia. }
    destruct (G (Z.to_nat (n1 - 0)) m 0 eq_refl ltac:(lia) (rearr_refl d m 0 n1)) as [RA HS].
    - intros p q Hp Hq. lia.
    - split; [exact (proj1 RA)|]. intros p q Hp Hpq Hq. apply HS; lia.
  Qed.
End Run.
