(** The dynamic array with the test in floating point. *)
From Coq Require Import Floats.SpecFloat.
From Verif Require Import Base ArraysModel ArraysProofs PrintProofs FloatModel FloatProofs3.

Section Run.
  Context {A : Type}.
  Definition appends (ops : list (doda_op A)) : Z := len (filter (fun o => match o with DAppend _ => true | DDelete _ => false end) ops).
  Lemma inv_num (d : doda A) : doda_inv d -> 0 <= d_num d <= d_last d + 1.
  Proof.
    intros I. rewrite (di_num _ I). split; [unfold len; lia|]. rewrite <- (inv_content_firstn d I). pose proof (di_last _ I).
    pose proof (content_length_le (firstn (Z.to_nat (d_last d + 1)) (d_data d))) as X. unfold len in *. rewrite firstn_length in X. lia.
  Qed.
  Lemma modify_same (d : doda A) : 0 <= d_num d <= d_size d -> 0 < d_ln d <= d_ld d -> d_size d * d_ld d <= 2 ^ 52 -> dodaf_modify d = doda_modify d.
  Proof.
    intros Hn Hl B. unfold dodaf_modify, doda_modify. destruct (Z.eqb_spec (d_size d) 0); [reflexivity|]. rewrite load_exact by lia. reflexivity.
  Qed.
  Lemma modify_size (d d' : doda A) : doda_modify d = Ret d' -> d_size d' = d_size d \/ d_size d' = 2 * d_num d + 1.
  Proof.
    unfold doda_modify. destruct (d_size d =? 0); [discriminate|]. destruct (_ <? _); [|intros [= <-]; auto]. destruct (doda_compact d) as [[arr j]| |]; cbn; try discriminate. intros [= <-]. auto.
  Qed.
  Definition mid (d : doda A) (el : A) : res (doda A) :=
    if d_last d + 1 =? d_size d then
      arr <- forM (zrange 0 (d_last d + 1)) (fun i arr => x <- aget (d_data d) i ;; aset arr i x) (repeat None (Z.to_nat (2 * d_size d + 1))) ;;
      arr' <- aset arr (d_last d + 1) (Some el) ;;
      Ret (Doda arr' (2 * d_size d + 1) (d_num d) (d_last d) (d_ln d) (d_ld d))
    else arr' <- aset (d_data d) (d_last d + 1) (Some el) ;; Ret (Doda arr' (d_size d) (d_num d) (d_last d) (d_ln d) (d_ld d)).
  Lemma mid_size (d d1 : doda A) el : mid d el = Ret d1 -> (d_size d1 = d_size d /\ d_last d + 1 <> d_size d \/ d_size d1 = 2 * d_size d + 1 /\ d_last d + 1 = d_size d) /\ d_num d1 = d_num d /\ d_ln d1 = d_ln d /\ d_ld d1 = d_ld d.
  Proof.
    unfold mid. destruct (Z.eqb_spec (d_last d + 1) (d_size d)).
    - destruct (forM _ _ _) as [arr| |]; cbn [bind]; try discriminate. destruct (aset arr _ _); cbn [bind]; try discriminate. intros [= <-]. cbn. auto.
    - destruct (aset _ _ _); cbn [bind]; try discriminate. intros [= <-]. cbn. auto.
  Qed.
  Lemma append_same (d : doda A) el M : doda_inv d -> d_last d + 2 <= M -> d_size d <= 2 * M + 1 -> (2 * M + 1) * d_ld d <= 2 ^ 52 ->
    dodaf_append d el = doda_append d el /\ forall d', doda_append d el = Ret d' -> d_size d' <= 2 * M + 1.
  Proof.
    intros I Hl Hs B. pose proof (inv_num d I) as Hn. pose proof (di_last _ I) as Hd. destruct (di_lf _ I) as (L1 & L2).
    change (dodaf_append d el) with (d1 <- mid d el ;; dodaf_modify (Doda (d_data d1) (d_size d1) (d_num d1 + 1) (d_last d1 + 1) (d_ln d1) (d_ld d1))).
    change (doda_append d el) with (d1 <- mid d el ;; doda_modify (Doda (d_data d1) (d_size d1) (d_num d1 + 1) (d_last d1 + 1) (d_ln d1) (d_ld d1))).
    destruct (mid d el) as [d1| |] eqn:E; cbn [bind]; [|split; [reflexivity|discriminate]..]. destruct (mid_size d d1 el E) as (S1 & N1 & E1 & E2).
    assert (SB : d_size d1 <= 2 * M + 1) by lia. assert (SN : d_num d + 1 <= d_size d1) by lia. split.
    - apply modify_same; cbn [d_num d_size d_ln d_ld]; [lia|lia|]. rewrite E2. assert (d_size d1 * d_ld d <= (2 * M + 1) * d_ld d) by (apply Z.mul_le_mono_nonneg_r; lia). lia.
    - intros d' H. apply modify_size in H. cbn [d_num d_size] in H. lia.
  Qed.
  Lemma delete_same (d : doda A) i M : doda_inv d -> d_last d + 1 <= M -> d_size d <= 2 * M + 1 -> (2 * M + 1) * d_ld d <= 2 ^ 52 ->
    dodaf_delete d i = doda_delete d i /\ forall d', doda_delete d i = Ret d' -> d_size d' <= 2 * M + 1.
  Proof.
    intros I Hl Hs B. pose proof (inv_num d I) as Hn. pose proof (di_last _ I) as Hd. destruct (di_lf _ I) as (L1 & L2). unfold dodaf_delete, doda_delete.
    destruct (_ && _) eqn:C; [|split; [reflexivity|intros d' [= <-]; lia]]. destruct (aget (d_data d) i) as [[x|]| |] eqn:G; cbn [bind]; [|split; [reflexivity|]; try discriminate; intros d' [= <-]; lia..].
    assert (NP : 1 <= d_num d). { assert (G2 : doda_get d i = Ret (Some x)). { apply andb_true_iff in C as (C1 & C2). apply Z.leb_le in C1, C2. pose proof (di_size _ I). unfold doda_get. destruct (Z.leb_spec (d_size d) i), (Z.ltb_spec i 0); try lia. cbn [orb]. rewrite (lget_ok _ None) by lia. rewrite (aget_ok _ None) in G by lia. exact G. }
      pose proof (doda_delete_spec d i I) as DS. rewrite G2 in DS. destruct DS as (d' & l1 & l2 & _ & _ & EC & _). rewrite (di_num _ I), EC. unfold len. rewrite app_length. cbn. lia. }
    destruct (aset _ _ _) as [data| |]; cbn [bind]; [|split; [reflexivity|discriminate]..]. split.
    - apply modify_same; cbn [d_num d_size d_ln d_ld]; [lia|lia|]. assert (d_size d * d_ld d <= (2 * M + 1) * d_ld d) by (apply Z.mul_le_mono_nonneg_r; lia). lia.
    - intros d' H. apply modify_size in H. cbn [d_num d_size] in H. lia.
  Qed.
  Lemma run_same ops M : forall d : doda A, doda_inv d -> d_last d + 1 + appends ops <= M -> d_size d <= 2 * M + 1 -> (2 * M + 1) * d_ld d <= 2 ^ 52 -> dodaf_run ops d = doda_run ops d.
  Proof.
    induction ops as [|o ops IH]; intros d I Hl Hs B; [reflexivity|]. unfold dodaf_run, doda_run in *. cbn [forM]. assert (AN : 0 <= appends ops) by (unfold appends, len; lia). destruct o as [x|i]; cbn [doda_step].
    - assert (AE : appends (DAppend x :: ops) = 1 + appends ops) by (unfold appends, len; cbn [filter length]; lia). rewrite AE in Hl. destruct (append_same d x M I ltac:(lia) Hs B) as (E & S). rewrite E. destruct (doda_append_spec d x I) as (d' & E' & I' & _ & _ & El & _ & (_ & La) & _). rewrite E' in *. cbn [bind]. apply IH; [exact I'| |apply S; reflexivity|rewrite El; exact B].
      pose proof (inv_num d' I'). pose proof (inv_num d I). destruct (doda_append_spec d x I) as (d2 & E2 & _ & _ & _ & _ & N2 & _). rewrite E' in E2. injection E2 as <-. lia.
    - assert (AE : appends (DDelete i :: ops) = appends ops) by reflexivity. rewrite AE in Hl. destruct (delete_same d i M I ltac:(lia) Hs B) as (E & S). rewrite E. pose proof (doda_delete_spec d i I) as DS. destruct (doda_get d i) as [[v|]| |]; [|rewrite DS in *; cbn [bind]; apply IH; assumption..].
      destruct DS as (d' & l1 & l2 & E' & I' & _ & _ & _ & _ & El & N' & (_ & La) & _). rewrite E' in *. cbn [bind]. apply IH; [exact I'| |apply S; reflexivity|rewrite El; exact B]. pose proof (inv_num d I). destruct (Z.eqb_spec (d_last d) i); lia.
  Qed.
End Run.
