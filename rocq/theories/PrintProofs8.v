(** The printed sparse table. *)
From Coq Require Import Strings.String.
From Verif Require Import Base RangeModel RangeSpec FenwickProofs SparseProofs NodeModel PrintModel4 PrintSpec3.
Import List.
Open Scope list_scope.

Section F.
  Context {V : Type} (func : combiner V) (op : V -> V -> V) (CB : combines func op) (coe : V -> V) (a : list V) (d : V).
  Notation table := (list (list (option V))).
  (** the cells that stand for no range are never written *)
  Definition rest_none (t : table) : Prop := shape (len a) (Z.log2 (len a) + 1) t /\
    forall i j, 0 <= i < len a -> 0 <= j -> len a < i + 2 ^ j -> tg t i j = None.
  Lemma sparse_rest : a <> [] -> wp (sparse_new func coe a) (fun t => True) -> wp (sparse_new func coe a) rest_none.
  Proof.
    intros Ha _. assert (Hl : 0 < len a) by (destruct a; [contradiction|unfold len; cbn [length]; lia]). unfold sparse_new.
    destruct (Z.eqb_spec (len a) 0); [lia|]. set (L := Z.log2 (len a) + 1). assert (HL : 0 < L) by (pose proof (Z.log2_nonneg (len a)); unfold L; lia).
    apply wp_bind. apply wp_for_range with (I := fun k t => rest_none t).
    - split.
      + split; [rewrite len_repeat; reflexivity|]. intros i Hi. unfold zn. rewrite (nth_indep _ [] (repeat None (Z.to_nat L))) by (rewrite repeat_length; unfold len in Hi; lia).
        rewrite nth_repeat, len_repeat. unfold L in *. lia.
      + intros i j Hi Hj _. unfold tg, zn. rewrite (nth_indep (repeat (repeat None (Z.to_nat L)) (length a)) [] (repeat None (Z.to_nat L))) by (rewrite repeat_length; unfold len in Hi; lia).
        rewrite nth_repeat. apply nth_repeat.
    - intros i t Hi [S H]. rewrite (lget_ok V d) by lia. cbn [bind]. rewrite (cb1 _ _ CB).
      eapply wp_mono; [apply (tab_set_ok coe _ _ t i 0 _ S); unfold L in *; lia|]. intros t' (S' & E1 & E2). split; [exact S'|].
      intros i' j' Hi' Hj' Hb. rewrite E2; [apply H; assumption|lia|lia|]. intros [= -> ->]. change (2 ^ 0) with 1 in Hb. lia.
    - intros t Ht. apply wp_for_range with (I := fun j t => rest_none t).
      + exact Ht.
      + intros j t1 Hj Ht1. rewrite !Z.shiftl_mul_pow2, !Z.mul_1_l by lia.
        assert (P0 : 0 < 2 ^ (j - 1)) by (apply Z.pow_pos_nonneg; lia). assert (Ep : 2 ^ j = 2 * 2 ^ (j - 1)) by (rewrite <- Z.pow_succ_r by lia; f_equal; lia).
        apply wp_for_range with (I := fun q t => rest_none t).
        * exact Ht1.
        * intros i t2 Hi (S2 & H2).
          assert (HjL : j < L). { pose proof (pow_log a j ltac:(lia)). unfold L. lia. }
          rewrite (tab_get_ok _ _ t2 i (j - 1) S2) by (unfold L in *; lia). cbn [bind]. rewrite (tab_get_ok _ _ t2 (i + 2 ^ (j - 1)) (j - 1) S2) by (unfold L in *; lia). cbn [bind].
          eapply wp_mono; [apply (tab_set_ok coe _ _ t2 i j _ S2); unfold L in *; lia|]. intros t3 (S3 & E1 & E2). split; [exact S3|].
          intros i' j' Hi' Hj' Hb. rewrite E2; [apply H2; assumption|lia|lia|]. intros [= -> ->]. lia.
        * intros t2 Ht2. exact Ht2.
      + intros t1 Ht1. exact Ht1.
  Qed.
  Context (Hcoe : forall l r v, rf op a l r = Some v -> coe v = v).
  Lemma sparse_exact : a <> [] -> sparse_new func coe a = Ret (sparse_rows op a).
  Proof.
    intros Ha. pose proof (sparse_new_ok func op CB coe a d Hcoe Ha) as W1. apply wp_ex in W1. destruct W1 as (t & E & [_ O]).
    assert (W2 : wp (sparse_new func coe a) (fun _ => True)) by (rewrite E; exact I). pose proof (sparse_rest Ha W2) as W3. rewrite E in W3. cbn [wp] in W3. destruct W3 as ([Sl Sr] & N).
    rewrite E. f_equal. apply (nth_ext _ _ [] []).
    - unfold sparse_rows. rewrite map_length, seq_length. unfold len in Sl. lia.
    - intros i Hi. assert (Hi' : (i < length a)%nat) by (unfold len in Sl; lia). unfold sparse_rows.
      set (f := fun i0 : nat => map (fun j : nat => sparse_cell op a (Z.of_nat i0) (Z.of_nat j)) (seq 0 (Datatypes.S (Z.to_nat (Z.log2 (len a)))))).
      rewrite (nth_indep (map f (seq 0 (length a))) [] (f 0%nat)) by (rewrite map_length, seq_length; exact Hi'). rewrite (map_nth f), seq_nth by exact Hi'. cbn [Nat.add]. unfold f.
      specialize (Sr (Z.of_nat i) ltac:(unfold len; lia)). unfold zn in Sr. rewrite Nat2Z.id in Sr. pose proof (Z.log2_nonneg (len a)) as Hlog.
      assert (Hn : length (nth i t []) = Datatypes.S (Z.to_nat (Z.log2 (len a)))) by (unfold len in Sr at 1; lia).
      apply (nth_ext _ _ None (sparse_cell op a (Z.of_nat i) (Z.of_nat 0))); [rewrite map_length, seq_length; exact Hn|]. intros j Hj. rewrite Hn in Hj.
      rewrite (map_nth (fun j : nat => sparse_cell op a (Z.of_nat i) (Z.of_nat j))), seq_nth by exact Hj. cbn [Nat.add].
      change (nth j (nth i t []) None) with (nth j (nth i t []) None). assert (Et : nth j (nth i t []) None = tg t (Z.of_nat i) (Z.of_nat j)) by (unfold tg, zn; rewrite !Nat2Z.id; reflexivity).
      rewrite Et. unfold sparse_cell. destruct (Z.leb_spec (Z.of_nat i + 2 ^ Z.of_nat j) (len a)).
      + apply O; lia.
      + apply N; [unfold len; lia|lia|lia].
  Qed.
End F.

(** ** the text *)
Lemma digits_ok f : forall n, 0 <= n < 2 ^ Z.of_nat f -> (0 < f)%nat -> digits f n <> [] /\ Forall (fun c => 48 <= c <= 57) (digits f n) /\ (hd 0 (digits f n) = 48 -> digits f n = [48]) /\
  fold_left (fun a c => 10 * a + (c - 48)) (digits f n) 0 = n /\ (0 < n -> hd 0 (digits f n) <> 48).
Proof.
  induction f as [|f IH]; intros n Hn Hf; [lia|]. cbn [digits]. destruct (Z.ltb_spec n 10).
  - cbn [hd fold_left]. split; [discriminate|]. split; [repeat constructor; lia|]. split; [intros E; f_equal; exact E|]. split; [lia|lia].
  - assert (Hd : 0 <= n / 10 < 2 ^ Z.of_nat f).
    { replace (Z.of_nat (S f)) with (Z.of_nat f + 1) in Hn by lia. rewrite Z.pow_add_r in Hn by lia. change (2 ^ 1) with 2 in Hn. split; [apply Z.div_pos; lia|]. apply Z.div_lt_upper_bound; lia. }
    assert (0 < n / 10) by (apply Z.div_str_pos; lia).
    assert (Hf' : (0 < f)%nat) by (destruct f; [cbn in Hd; lia|lia]). destruct (IH (n / 10) Hd Hf') as (A & B & C & D & F).
    pose proof (Z.mod_pos_bound n 10 ltac:(lia)). pose proof (Z.div_mod n 10 ltac:(lia)) as Dm.
    assert (Hhd : hd 0 (digits f (n / 10) ++ [48 + n mod 10]) = hd 0 (digits f (n / 10))) by (destruct (digits f (n / 10)); [contradiction|reflexivity]).
    split; [destruct (digits f (n / 10)); discriminate|]. split; [apply Forall_app; split; [exact B|repeat constructor; lia]|].
    split; [rewrite Hhd; intros E; exfalso; apply (F ltac:(lia) E)|]. split; [rewrite fold_left_app, D; cbn [fold_left]; lia|]. intros _. rewrite Hhd. apply F. lia.
Qed.
Lemma decimal_ok z : decimal_of z (decimal z).
Proof.
  unfold decimal_of, decimal. destruct (Z.ltb_spec z 0).
  - destruct (digits_ok (S (Z.to_nat (Z.log2 (- z)))) (- z)) as (A & B & C & D & _).
    { split; [lia|]. pose proof (Z.log2_nonneg (- z)). pose proof (Z.log2_spec (- z) ltac:(lia)). replace (Z.of_nat (S (Z.to_nat (Z.log2 (- z))))) with (Z.succ (Z.log2 (- z))) by lia. lia. }
    { lia. }
    exists (digits (S (Z.to_nat (Z.log2 (- z)))) (- z)). split; [reflexivity|]. split; [exact A|]. split; [exact B|]. split; [exact C|]. rewrite D. lia.
  - destruct (digits_ok (S (Z.to_nat (Z.log2 z))) z) as (A & B & C & D & _).
    { split; [lia|]. destruct (Z.eq_dec z 0) as [->|]; [reflexivity|]. pose proof (Z.log2_nonneg z). pose proof (Z.log2_spec z ltac:(lia)). replace (Z.of_nat (S (Z.to_nat (Z.log2 z)))) with (Z.succ (Z.log2 z)) by lia. lia. }
    { lia. }
    exists (digits (S (Z.to_nat (Z.log2 z))) z). split; [reflexivity|]. split; [exact A|]. split; [exact B|]. split; [exact C|]. rewrite D. lia.
Qed.
Lemma join_ok items : list_str items = bracketed items.
Proof.
  unfold list_str, bracketed. change (lit "[") with [91]. change (lit "]") with [93]. f_equal. f_equal. destruct items as [|x l]; [reflexivity|].
  revert x. induction l as [|y l IH]; intros x; [cbn; rewrite app_nil_r; reflexivity|].
  change (join_comma (x :: y :: l)) with (x ++ lit ", " ++ join_comma (y :: l)). rewrite IH. cbn [flat_map]. change (lit ", ") with [44; 32]. rewrite <- !app_assoc. reflexivity.
Qed.
(** no quote and no backslash in a text *)
Definition calm (t : list Z) : Prop := Forall (fun c => c <> 39 /\ c <> 92) t.
Lemma calm_repr t : calm t -> py_repr t = [39] ++ t ++ [39].
Proof.
  intros H. unfold py_repr. assert (E : existsb (Z.eqb 39) t = false).
  { apply not_true_iff_false. intros E. apply existsb_exists in E. destruct E as (c & Hc & Eq). apply Z.eqb_eq in Eq. unfold calm in H. rewrite Forall_forall in H. specialize (H c Hc). lia. }
  rewrite E. cbn [andb app]. do 2 f_equal. induction H as [|c t [H1 H2] H IH]; [reflexivity|]. cbn [flat_map]. cbn [existsb] in E. apply orb_false_iff in E. destruct E as [_ E].
  rewrite (IH E). destruct (Z.eqb_spec c 92); [contradiction|]. destruct (Z.eqb_spec c 39); [contradiction|]. reflexivity.
Qed.
Lemma calm_app a b : calm a -> calm b -> calm (a ++ b). Proof. intros. apply Forall_app. split; assumption. Qed.
Lemma calm_decimal z : calm (decimal z).
Proof.
  destruct (decimal_ok z) as (ds & -> & _ & H & _). apply calm_app.
  - destruct (z <? 0); repeat constructor; lia.
  - revert H. apply Forall_impl. intros c Hc. lia.
Qed.
Lemma calm_cell v : calm (cell_repr v).
Proof. destruct v; [apply calm_decimal|]. repeat (constructor; [cbv; split; intros; discriminate|]). constructor. Qed.
Lemma calm_bracketed l : Forall calm l -> calm (bracketed l).
Proof.
  intros H. unfold bracketed. apply calm_app; [repeat constructor; lia|]. apply calm_app; [|repeat constructor; lia]. destruct H as [|x l Hx H]; [constructor|]. apply calm_app; [exact Hx|].
  induction H as [|y l Hy H IH]; [constructor|]. cbn [flat_map]. apply calm_app; [|exact IH]. apply calm_app; [repeat constructor; lia|exact Hy].
Qed.
Lemma sparse_text_ok t : rows_text t (sparse_str t).
Proof.
  exists (map (map cell_repr) t). split.
  - induction t as [|row t IH]; [constructor|]. constructor; [|exact IH]. clear. induction row as [|v row IH]; [constructor|]. constructor; [|exact IH]. destruct v; [apply decimal_ok|reflexivity].
  - unfold sparse_str. rewrite join_ok. f_equal. rewrite map_map. apply map_ext. intros row. unfold array_str. rewrite join_ok. apply calm_repr. apply calm_bracketed.
    apply Forall_forall. intros x Hx. apply in_map_iff in Hx. destruct Hx as (v & <- & _). apply calm_cell.
Qed.
