(** The C++ dynamic array with the single-precision test. *)
From Coq Require Import Floats.SpecFloat.
From Verif Require Import Base ArraysModel ArraysProofs CppArrayModel CppArrayProofs FloatModel FloatModel2 FloatProofs4 FloatSingle.

Section Run.
  Context {A : Type}.
  Definition pow2 (q : Z) : Prop := exists k, 0 <= k /\ q = 2 ^ k.
  Lemma cmodify_same (d : cdoda A) : 0 <= c_num d <= c_asize d -> 0 < c_ln d <= c_ld d -> pow2 (c_ld d) -> c_asize d * c_ld d <= 2 ^ 23 -> cppf_modify d = cpp_modify d.
  Proof.
    intros Hn Hl P B. unfold cppf_modify, cpp_modify. destruct (Z.ltb_spec 0 (c_asize d)) as [L|L]; cbn [andb].
    - rewrite c_load_exact by (try lia; right; exact P). reflexivity.
    - replace (c_num d) with 0 by lia. replace (c_asize d) with 0 by lia. reflexivity.
  Qed.
  Definition cmid (d : cdoda A) (el : option A) : res (cdoda A) :=
    if c_last d + 1 =? c_asize d then
      arr <- forM (zrange 0 (c_last d + 1)) (fun i arr => x <- rawget (c_buf d) i ;; rawset arr i x) (repeat None (Z.to_nat (2 * c_asize d + 1))) ;;
      arr' <- rawset arr (c_last d + 1) el ;;
      Ret (Cdoda arr' (2 * c_asize d + 1) (2 * c_asize d + 1) (c_num d) (c_last d) (c_ln d) (c_ld d))
    else arr' <- rawset (c_buf d) (c_last d + 1) el ;; Ret (Cdoda arr' (c_asize d) (c_size d) (c_num d) (c_last d) (c_ln d) (c_ld d)).
  Lemma cmid_size (d d1 : cdoda A) el : cmid d el = Ret d1 -> (c_asize d1 = c_asize d /\ c_last d + 1 <> c_asize d \/ c_asize d1 = 2 * c_asize d + 1 /\ c_last d + 1 = c_asize d) /\ c_num d1 = c_num d /\ c_ln d1 = c_ln d /\ c_ld d1 = c_ld d.
  Proof.
    unfold cmid. destruct (Z.eqb_spec (c_last d + 1) (c_asize d)).
    - destruct (forM _ _ _) as [arr| |]; cbn [bind]; try discriminate. destruct (rawset arr _ _); cbn [bind]; try discriminate. intros [= <-]. cbn. auto.
    - destruct (rawset _ _ _); cbn [bind]; try discriminate. intros [= <-]. cbn. auto.
  Qed.
  Lemma cappend_same (d : doda A) el M : doda_inv d -> pow2 (d_ld d) -> d_last d + 2 <= M -> d_size d <= 2 * M + 1 -> (2 * M + 1) * d_ld d <= 2 ^ 23 -> cppf_append (emb d) el = cpp_append (emb d) el.
  Proof.
    intros I P Hl Hs B. pose proof (inv_num d I) as Hn. pose proof (di_last _ I) as Hd. destruct (di_lf _ I) as (L1 & L2).
    change (cppf_append (emb d) el) with (d1 <- cmid (emb d) el ;; cppf_modify (Cdoda (c_buf d1) (c_asize d1) (c_size d1) (c_num d1 + 1) (c_last d1 + 1) (c_ln d1) (c_ld d1))).
    change (cpp_append (emb d) el) with (d1 <- cmid (emb d) el ;; cpp_modify (Cdoda (c_buf d1) (c_asize d1) (c_size d1) (c_num d1 + 1) (c_last d1 + 1) (c_ln d1) (c_ld d1))).
    destruct (cmid (emb d) el) as [d1| |] eqn:E; cbn [bind]; [|reflexivity..]. destruct (cmid_size (emb d) d1 el E) as (S1 & N1 & E1 & E2). cbn [emb c_asize c_last c_num c_ln c_ld] in S1, N1, E1, E2.
    apply cmodify_same; cbn [c_num c_asize c_ln c_ld]; [lia|lia|rewrite E2; exact P|]. rewrite E2. assert (c_asize d1 * d_ld d <= (2 * M + 1) * d_ld d) by (apply Z.mul_le_mono_nonneg_r; lia). lia.
  Qed.
  Lemma cdelete_same (d : doda A) i M : doda_inv d -> pow2 (d_ld d) -> d_last d + 1 <= M -> d_size d <= 2 * M + 1 -> (2 * M + 1) * d_ld d <= 2 ^ 23 -> cppf_delete (emb d) i = cpp_delete (emb d) i.
  Proof.
    intros I P Hl Hs B. pose proof (inv_num d I) as Hn. pose proof (di_last _ I) as Hd. pose proof (di_size _ I) as Hz. destruct (di_lf _ I) as (L1 & L2). unfold cppf_delete, cpp_delete. cbn [emb c_asize c_last c_num c_ln c_ld c_buf].
    destruct (_ && _) eqn:C; [|reflexivity]. apply andb_true_iff in C as (C1 & C2). apply Z.leb_le in C1, C2. destruct (rawget (d_data d) i) as [[x|]| |] eqn:G; cbn [bind]; [|reflexivity..].
    assert (NP : 1 <= d_num d). { assert (G2 : doda_get d i = Ret (Some x)). { rewrite <- (get_eq d i I). unfold cpp_get. cbn [emb c_asize c_buf]. destruct (Z.leb_spec (d_size d) i), (Z.ltb_spec i 0); try lia. cbn [orb]. exact G. }
      pose proof (doda_delete_spec d i I) as DS. rewrite G2 in DS. destruct DS as (d' & l1 & l2 & _ & _ & EC & _). rewrite (di_num _ I), EC. unfold len. rewrite app_length. cbn. lia. }
    destruct (rawset _ _ _) as [data| |]; cbn [bind]; [|reflexivity..]. apply cmodify_same; cbn [c_num c_asize c_ln c_ld]; [lia|lia|exact P|]. assert (d_size d * d_ld d <= (2 * M + 1) * d_ld d) by (apply Z.mul_le_mono_nonneg_r; lia). lia.
  Qed.
  Lemma crun_same ops M : forall d : doda A, doda_inv d -> pow2 (d_ld d) -> d_last d + 1 + appends ops <= M -> d_size d <= 2 * M + 1 -> (2 * M + 1) * d_ld d <= 2 ^ 23 -> cppf_run (map cpp_op ops) (emb d) = cdoda_run (map cpp_op ops) (emb d).
  Proof.
    induction ops as [|o ops IH]; intros d I P Hl Hs B; [reflexivity|]. unfold cppf_run, cdoda_run in *. cbn [forM map]. assert (AN : 0 <= appends ops) by (unfold appends, len; lia). assert (PB : (2 * M + 1) * d_ld d <= 2 ^ 52) by lia. destruct o as [x|i]; cbn [cpp_op cdoda_step].
    - assert (AE : appends (DAppend x :: ops) = 1 + appends ops) by (unfold appends, len; cbn [filter length]; lia). rewrite AE in Hl. rewrite (cappend_same d (Some x) M I P ltac:(lia) Hs B). destruct (append_same d x M I ltac:(lia) Hs PB) as (_ & S). destruct (doda_append_spec d x I) as (d' & E' & I' & _ & _ & El & N' & (_ & La) & _). rewrite (append_eq d x d' I E'). cbn [bind].
      pose proof (inv_num d' I'). pose proof (inv_num d I). apply IH; [exact I'|rewrite El; exact P|lia|apply S; exact E'|rewrite El; exact B].
    - assert (AE : appends (DDelete i :: ops) = appends ops) by reflexivity. rewrite AE in Hl. rewrite (cdelete_same d i M I P ltac:(lia) Hs B). destruct (delete_same d i M I ltac:(lia) Hs PB) as (_ & S). pose proof (doda_delete_spec d i I) as DS. destruct (doda_get d i) as [[v|]| |]; [|rewrite (delete_eq d i d I DS); cbn [bind]; apply IH; assumption..].
      destruct DS as (d' & l1 & l2 & E' & I' & _ & _ & _ & _ & El & N' & (_ & La) & _). rewrite (delete_eq d i d' I E'). cbn [bind]. pose proof (inv_num d I). apply IH; [exact I'|rewrite El; exact P|destruct (Z.eqb_spec (d_last d) i); lia|apply S; exact E'|rewrite El; exact B].
  Qed.
End Run.
