(** Multi-dimensional array: exactly which index tuples are accepted, and which cell each names. *)
From Verif Require Import Base ArraysModel ArraysProofs MdaSpec.

Lemma volume_prod dims : volume dims = prod dims.
Proof. reflexivity. Qed.
Lemma row_major_acc dims : forall t a, length t = length dims -> fold_left (fun acc p => acc * fst p + snd p) (combine dims t) a = a * prod dims + pos_spec dims t.
Proof.
  induction dims as [|d ds IH]; intros [|i t] a H; cbn [length] in H; try discriminate; [simpl; lia|].
  cbn [combine fold_left fst snd]. rewrite IH by lia. cbn [pos_spec]. change (prod (d :: ds)) with (d * prod ds). lia.
Qed.
Lemma row_major_pos dims t : length t = length dims -> row_major dims t = pos_spec dims t.
Proof. intros H. unfold row_major. rewrite row_major_acc by exact H. lia. Qed.
Lemma unflatten dims : pos_dims dims -> forall q, 0 <= q < prod dims -> exists u, in_shape dims u /\ pos_spec dims u = q.
Proof.
  induction 1 as [|d ds Hd Hp IH]; intros q Hq.
  - exists []. split; [constructor|]. cbn in *. lia.
  - change (prod (d :: ds)) with (d * prod ds) in Hq. pose proof (prod_pos ds Hp) as Hpp.
    destruct (IH (q mod prod ds) ltac:(apply Z.mod_pos_bound; lia)) as (u & Hu & Eu). exists (q / prod ds :: u). split.
    + constructor; [|exact Hu]. split; [apply Z.div_pos; lia|apply Z.div_lt_upper_bound; lia].
    + cbn [pos_spec]. rewrite Eu. symmetry. apply Z.div_mod. lia.
Qed.
Section M.
  Context {A : Type} (conv : A -> res A).
  Lemma exceeds dims : forall t, length t = length dims ->
    existsb (fun p => snd p <=? fst p) (combine t (sufprods dims)) = false <-> (forall n, (n < length dims)%nat -> nth n t 0 < volume (skipn n dims)).
  Proof.
    induction dims as [|d ds IH]; intros [|i t] H; cbn [length] in H; try discriminate.
    - split; [intros _ n Hn; cbn in Hn; lia|reflexivity].
    - cbn [sufprods combine existsb fst snd]. rewrite orb_false_iff, IH, Z.leb_gt by lia. split.
      + intros [H1 H2] [|n] Hn; [exact H1|]. cbn [nth skipn]. apply H2. cbn [length] in Hn. lia.
      + intros G. split; [exact (G O ltac:(cbn [length]; lia))|]. intros n Hn. apply (G (S n)). cbn [length]. lia.
  Qed.
  Lemma run_ok dims ops : forall m : mda A, mda_ok dims m -> mda_ok dims (mda_run conv ops m).
  Proof.
    induction ops as [|o ops IH]; intros m Hm; [exact Hm|]. unfold mda_run in *. cbn [fold_left]. apply IH.
    destruct Hm as [E1 E2]. destruct o as [t e|v]; unfold mda_step.
    - unfold mda_set. destruct (mda_compare_shape m t); cbn [bind step_keep]; [|split; assumption..]. unfold aset. destruct (_ || _); cbn [bind step_keep]; [split; assumption|]. split; cbn; [exact E1|rewrite len_upd; exact E2].
    - unfold mda_fill. destruct (conv v); cbn [bind step_keep]; [|split; assumption..]. rewrite fill_loop. cbn [bind step_keep]. split; cbn; [exact E1|]. rewrite len_repeat. unfold len in *. lia.
  Qed.
  Lemma lget_mod (l : list (option A)) p : - len l <= p < len l -> lget l p = lget l (p mod len l).
  Proof.
    intros H. unfold lget. destruct (Z.ltb_spec p 0).
    - assert (E : p mod len l = p + len l) by (symmetry; apply Z.mod_unique with (-1); lia). rewrite E. destruct (Z.ltb_spec (p + len l) 0); [lia|reflexivity].
    - rewrite Z.mod_small by lia. destruct (Z.ltb_spec p 0); [lia|reflexivity].
  Qed.
  Lemma aset_mod (l : list (option A)) p e : - len l <= p < len l -> aset l p e = aset l (p mod len l) e.
  Proof.
    intros H. unfold aset. destruct (Z.ltb_spec p 0).
    - assert (E : p mod len l = p + len l) by (symmetry; apply Z.mod_unique with (-1); lia). rewrite E. destruct (Z.ltb_spec (p + len l) 0); [lia|]. destruct (Z.ltb_spec (p + len l) 0); [lia|]. reflexivity.
    - rewrite Z.mod_small by lia. destruct (Z.ltb_spec p 0); [lia|]. destruct (Z.ltb_spec p 0); [lia|]. reflexivity.
  Qed.
  Lemma lget_bad (l : list (option A)) p : ~ (- len l <= p < len l) -> lget l p = Raise IndexError.
  Proof. intros H. unfold lget. apply aget_err. destruct (Z.ltb_spec p 0); lia. Qed.
  Lemma aset_bad (l : list (option A)) p e : ~ (- len l <= p < len l) -> aset l p e = Raise IndexError.
  Proof. intros H. unfold aset. destruct (Z.ltb_spec p 0), (Z.ltb_spec p 0), (Z.ltb_spec (p + len l) 0), (Z.leb_spec (len l) (p + len l)), (Z.leb_spec (len l) p); cbn [orb]; try reflexivity; try lia. Qed.
  Lemma shape_ok dims (m : mda A) t : mda_ok dims m -> length t = length dims -> (forall n, (n < length dims)%nat -> nth n t 0 < volume (skipn n dims)) -> mda_compare_shape m t = Ret tt.
  Proof.
    intros [E1 _] Hl H. unfold mda_compare_shape. rewrite E1, sufprods_len. replace (len t =? len dims + 1 - 1) with true by (symmetry; apply Z.eqb_eq; unfold len; lia). cbn [negb].
    rewrite (proj2 (exceeds dims t Hl) H). reflexivity.
  Qed.
  Lemma accepted dims (m : mda A) t : pos_dims dims -> mda_ok dims m -> accepts dims t ->
    exists u, in_shape dims u /\ row_major dims u = row_major dims t mod volume dims /\ mda_get m t = mda_get m u /\ (forall e, mda_set m t e = mda_set m u e) /\ exists v, mda_get m t = Ret v.
  Proof.
    intros Hp Hm (Hl & Hf & Hr). pose proof (prod_pos dims Hp) as Hpp. rewrite row_major_pos in * by exact Hl. rewrite volume_prod in *.
    destruct (unflatten dims Hp (pos_spec dims t mod prod dims) ltac:(apply Z.mod_pos_bound; lia)) as (u & Hu & Eu). exists u.
    assert (Hlu : length u = length dims) by (symmetry; apply (Forall2_len _ _ _ _ _ Hu)).
    split; [exact Hu|]. rewrite row_major_pos by exact Hlu. split; [exact Eu|].
    unfold mda_get, mda_set. rewrite (shape_ok dims m t Hm Hl Hf), (compare_shape_ok dims m u (proj1 Hm) Hp Hu). cbn [bind]. destruct Hm as [E1 E2]. rewrite E1, !mda_position_spec, Eu, <- E2. rewrite <- E2 in Hr.
    split; [apply lget_mod; exact Hr|]. split; [intros e; rewrite <- aset_mod by exact Hr; reflexivity|]. rewrite lget_mod by exact Hr. eexists. apply (lget_ok _ None). apply Z.mod_pos_bound. lia.
  Qed.
  Lemma rejected dims (m : mda A) t : pos_dims dims -> mda_ok dims m -> ~ accepts dims t -> mda_get m t = Raise IndexError /\ forall e, mda_set m t e = Raise IndexError.
  Proof.
    intros Hp Hm Hn. unfold mda_get, mda_set. destruct (mda_compare_shape m t) eqn:E.
    - unfold mda_compare_shape in E. pose proof Hm as [E1 E2]. rewrite E1, sufprods_len in E. destruct (Z.eqb_spec (len t) (len dims + 1 - 1)) as [Hl|]; cbn [negb] in E; [|discriminate].
      assert (Hl' : length t = length dims) by (unfold len in Hl; lia).
      destruct (existsb _ _) eqn:X in E; [discriminate|]. pose proof (proj1 (exceeds dims t Hl') X) as Hf. cbn [bind].
      assert (Hb : ~ (- len (m_data m) <= mda_position (m_sizes m) t < len (m_data m))).
      { rewrite E1, mda_position_spec, E2, <- (row_major_pos dims t Hl'), <- volume_prod. intros Hb. apply Hn. split; [exact Hl'|]. split; [exact Hf|exact Hb]. }
      split; [apply lget_bad, Hb|]. intros e. rewrite aset_bad by exact Hb. reflexivity.
    - unfold mda_compare_shape in E. destruct (negb _); [inversion E; subst; split; reflexivity|]. destruct (existsb _ _); [inversion E; subst; split; reflexivity|discriminate].
    - unfold mda_compare_shape in E. destruct (negb _); [discriminate|]. destruct (existsb _ _); discriminate.
  Qed.
End M.
