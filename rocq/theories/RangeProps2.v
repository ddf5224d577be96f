(** Properties C47 and C49 continued: what the truncating table answers, and what the segment-tree back end does with negative indices. *)
From Verif Require Import Base RangeModel RangeSpec FenwickProofs SparseProofs SegTreeProofs RangeProps.

(** ** C49 *)
(** the contents the tree stands for are [g]; the array it carries only has the right length *)
Definition st_like {V} (op : V -> V -> V) (g : list V) (t : segtree V) : Prop :=
  len (st_array t) = len g /\ 0 < len g /\
  exists T, st_root t = Some (addr T) /\ NoDup (addrs T) /\ rep op g (st_heap t) T 0 (len g - 1).

Lemma st_like_query {V} (func : combiner V) op g t l r : combines func op -> st_like op g t ->
  st_query func t l r = Ret (rf op g (Z.max 0 l) (Z.min (len g - 1) r)).
Proof.
  intros CB (Ea & Hl & T & Er & _ & P). unfold st_query. rewrite Er, Ea. apply (query_rec_ok func op CB); [exact P|lia|]. unfold len in *. lia.
Qed.
Lemma aset_arr {V} (arr : list V) n i v : len arr = n -> 0 < n -> - n <= i < n -> exists arr', aset arr i v = Ret arr' /\ len arr' = n.
Proof.
  intros E Hn Hi. unfold aset. set (j := if i <? 0 then i + len arr else i). assert (0 <= j < len arr) by (unfold j; destruct (Z.ltb_spec i 0); lia).
  destruct (Z.ltb_spec j 0); [lia|]. destruct (Z.leb_spec (len arr) j); [lia|]. cbn [orb]. eexists. split; [reflexivity|]. rewrite len_upd. exact E.
Qed.
Lemma st_like_update {V} (func : combiner V) op g t i v : combines func op -> st_like op g t -> - len g <= i < len g ->
  exists t', st_update func t i v = Ret t' /\ st_like op (py_set g (Z.max (-1) i) v) t'.
Proof.
  intros CB (Ea & Hl & T & Er & D & P) Hi. destruct (aset_arr (st_array t) _ i v Ea Hl Hi) as (arr' & Es & La).
  destruct (update_rec_ok func op CB v i v _ arr' T Es g (st_heap t) 0 (len g - 1) [] P D ltac:(lia) ltac:(lia)) as (k & h' & R & K & P' & F).
  assert (Eq : zupd g (leafpos i 0 (len g - 1)) v = py_set g (Z.max (-1) i) v).
  { unfold zupd, py_set, leafpos. do 2 f_equal. destruct (Z.leb_spec 0 i), (Z.leb_spec i (len g - 1)), (Z.ltb_spec (Z.max (-1) i) 0); simpl; lia. }
  rewrite Eq in P'. exists {| st_array := arr'; st_heap := h'; st_root := Some (addr T) |}. split.
  - unfold st_update. rewrite Er. assert (Ef : exists f, (2 * length (st_array t) + 2)%nat = (k + S f)%nat) by (exists (2 * length (st_array t) + 1 - k)%nat; unfold len in *; lia). destruct Ef as [f ->].
    rewrite R. rewrite (while_break _ _ (h', arr') f) by reflexivity. reflexivity.
  - assert (Lp : len (py_set g (Z.max (-1) i) v) = len g) by (unfold py_set; apply len_upd). split; [cbn [st_array]; rewrite Lp; exact La|]. split; [lia|]. exists T. rewrite Lp. auto.
Qed.
Lemma st_like_update_err {V} (func : combiner V) op g t i v : st_like op g t -> i < - len g \/ len g <= i -> st_update func t i v = Raise IndexError.
Proof.
  intros (Ea & Hl & T & Er & D & P) Hi.
  assert (Es : aset (st_array t) i v = Raise IndexError).
  { unfold aset. rewrite Ea. destruct (Z.ltb_spec i 0); [destruct (Z.ltb_spec (i + len g) 0); [reflexivity|lia]|]. destruct (Z.ltb_spec i 0); [lia|]. destruct (Z.leb_spec (len g) i); [reflexivity|lia]. }
  destruct (update_rec_err func op i v _ _ T Es g (st_heap t) 0 (len g - 1) [] P) as (k & K & R). unfold st_update. rewrite Er.
  assert (Ef : exists f, (2 * length (st_array t) + 2)%nat = (k + S f)%nat) by (exists (2 * length (st_array t) + 1 - k)%nat; unfold len in *; lia). destruct Ef as [f ->]. rewrite R. reflexivity.
Qed.

(** the call the segment-tree back end behaves as having received: an accepted negative index means the last element *)
Definition seg_reads {V} (n : Z) (o : rq_op V) : rq_op V :=
  match o with RUpdate i v => if (- n <=? i) && (i <? 0) then RUpdate (-1) v else o | RQuery _ _ => o end.

(** C49. Every sequence of calls, whatever the indices: the array back end gives exactly the expected outcomes; the segment-tree back end
    gives the expected outcomes of the same calls with every update index in -n..-1 read as -1. *)
Theorem C49_dynamic_back_ends_exact : forall (V : Type) (func : combiner V) (op : V -> V -> V) (a : list V) (ops : list (rq_op V)),
  combines func op ->
  (a = [] -> rqd_seg_new func a = Raise ValueError /\ rqd_array_new a = Raise ValueError) /\
  (a <> [] -> exists o, rqd_seg_new func a = Ret o /\ rqd_array_new a = Ret a /\
    outcomes (rqd_seg_update func) (rqd_seg_query func) ops o = expected op (map (seg_reads (len a)) ops) a /\
    outcomes rqd_array_update (rqd_array_query func) ops a = expected op ops a).
Proof.
  intros V func op a ops CB. split; [intros ->; split; reflexivity|]. intros Ha. assert (d : V) by (destruct a; [contradiction|assumption]).
  assert (Hl : 0 < len a) by (destruct a; [contradiction|unfold len; cbn [length]; lia]).
  destruct (st_build_ok func op CB d a Ha) as (t0 & E0 & (_ & Oa & O0)). exists (t0, len a). split; [unfold rqd_seg_new; rewrite E0; destruct (Z.eqb_spec (len a) 0); [lia|reflexivity]|].
  split; [unfold rqd_array_new; destruct (Z.eqb_spec (len a) 0); [lia|reflexivity]|].
  assert (O1 : st_like op a t0) by (split; [rewrite Oa; reflexivity|split; assumption]). clear E0 Ha Oa O0. split.
  - remember (len a) as n eqn:En. revert a t0 O1 En Hl. induction ops as [|[i v|l r] ops IH]; intros a t O En Hl; [reflexivity| |]; cbn [outcomes expected map seg_reads].
    + unfold rqd_seg_update at 1. cbn [fst snd].
      destruct (Z_lt_dec i (- n)); [|destruct (Z_lt_dec i n)].
      * destruct (Z.leb_spec (- n) i); [lia|]. cbn [andb]. rewrite (st_like_update_err func op a t i v O) by lia. cbn [bind].
        destruct (Z.leb_spec (- len a) i); [lia|]. cbn [andb]. f_equal. apply IH; auto.
      * destruct (st_like_update func op a t i v CB O ltac:(lia)) as (t1 & -> & O1). cbn [bind].
        assert (L : len (py_set a (Z.max (-1) i) v) = len a) by (unfold py_set; apply len_upd).
        assert (Ej : (if (- n <=? i) && (i <? 0) then RUpdate (-1) v else RUpdate i v) = RUpdate (Z.max (-1) i) v).
        { destruct (Z.leb_spec (- n) i), (Z.ltb_spec i 0); cbn [andb]; f_equal; lia. }
        rewrite Ej. cbn [expected]. destruct (Z.leb_spec (- len a) (Z.max (-1) i)); [|lia]. destruct (Z.ltb_spec (Z.max (-1) i) (len a)); [|lia]. cbn [andb]. f_equal.
        apply IH; [exact O1|congruence|lia].
      * destruct (Z.ltb_spec i 0); [lia|]. rewrite andb_false_r. rewrite (st_like_update_err func op a t i v O) by lia. cbn [bind expected].
        destruct (Z.ltb_spec i (len a)); [lia|]. rewrite andb_false_r. f_equal. apply IH; auto.
    + f_equal; [|apply IH; auto]. unfold rqd_seg_query. cbn [fst snd]. subst n.
      destruct (Z.ltb_spec r l); [rewrite check_err by lia; destruct (Z.ltb_spec r l); [reflexivity|lia]|].
      destruct (Z.ltb_spec l 0); [rewrite check_err by lia; destruct (Z.ltb_spec r l); [lia|reflexivity]|].
      destruct (Z.leb_spec (len a) r); [rewrite check_err by lia; destruct (Z.ltb_spec r l); [lia|reflexivity]|]. cbn [orb].
      rewrite check_ok by lia. cbn [bind]. rewrite (st_like_query func op a t l r CB O). unfold rf. do 3 f_equal; lia.
  - clear t0 O1. revert a Hl. induction ops as [|[i v|l r] ops IH]; intros a Hl; [reflexivity| |]; cbn [outcomes expected].
    + unfold rqd_array_update at 1. unfold aset. assert (L : len (py_set a i v) = len a) by (unfold py_set; apply len_upd).
      set (j := if i <? 0 then i + len a else i). assert (Hj : (- len a <= i < len a <-> 0 <= j < len a) /\ (i < - len a -> j < 0) /\ (len a <= i -> len a <= j)) by (unfold j; destruct (Z.ltb_spec i 0); lia).
      destruct (Z.leb_spec (- len a) i), (Z.ltb_spec i (len a)); cbn [andb].
      * destruct (Z.ltb_spec j 0); [lia|]. destruct (Z.leb_spec (len a) j); [lia|]. cbn [orb].
        f_equal. change (upd a (Z.to_nat j) v) with (py_set a i v). apply IH. lia.
      * destruct (Z.leb_spec (len a) j); [|lia]. rewrite orb_true_r. f_equal. apply IH; auto.
      * destruct (Z.ltb_spec j 0); [|lia]. cbn [orb]. f_equal. apply IH; auto.
      * lia.
    + f_equal; [|apply IH; auto]. unfold rqd_array_query.
      destruct (Z.ltb_spec r l); [unfold rqs_array_query; rewrite check_err by lia; destruct (Z.ltb_spec r l); [reflexivity|lia]|].
      destruct (Z.ltb_spec l 0); [unfold rqs_array_query; rewrite check_err by lia; destruct (Z.ltb_spec r l); [lia|reflexivity]|].
      destruct (Z.leb_spec (len a) r); [unfold rqs_array_query; rewrite check_err by lia; destruct (Z.ltb_spec r l); [lia|reflexivity]|]. cbn [orb].
      rewrite (array_query_ok func op CB a l r) by lia. reflexivity.
Qed.
Print Assumptions C49_dynamic_back_ends_exact.
Example C49_exact_case : exists o, rqd_seg_new py_summation [4; 6; 1] = Ret o /\
  outcomes (rqd_seg_update py_summation) (rqd_seg_query py_summation) [RUpdate (-3) 5; RQuery 0 2; RUpdate (-4) 0; RUpdate (-2) 8; RQuery 1 2; RQuery 0 0] o =
    [Ret None; Ret (Some 15); Raise IndexError; Ret None; Ret (Some 14); Ret (Some 4)] /\
  outcomes rqd_array_update (rqd_array_query py_summation) [RUpdate (-3) 5; RQuery 0 2; RUpdate (-4) 0; RUpdate (-2) 8; RQuery 1 2; RQuery 0 0] [4; 6; 1] =
    [Ret None; Ret (Some 12); Raise IndexError; Ret None; Ret (Some 9); Ret (Some 5)].
Proof. eexists. repeat apply conj; vm_compute; reflexivity. Qed.

(** ** C47 *)
Lemma lget_map {V W} (f : V -> W) (a : list V) i : lget (map f a) i = (x <- lget a i ;; Ret (f x)).
Proof.
  unfold lget, aget, len. rewrite map_length. cbv zeta.
  match goal with |- context [if ?c || ?e then _ else _] => destruct (c || e) end; [reflexivity|]. rewrite nth_error_map.
  match goal with |- context [nth_error ?l ?n] => destruct (nth_error l n) end; reflexivity.
Qed.
Lemma forM_ext {A S} (l : list A) (f g : A -> S -> res S) : (forall x s, f x s = g x s) -> forall s, forM l f s = forM l g s.
Proof. intros H. induction l as [|x l IH]; intros s; [reflexivity|]. cbn [forM]. rewrite H. destruct (g x s); cbn [bind]; auto. Qed.
Lemma sparse_new_coerced {V} (func : combiner V) op (coe : V -> V) (a : list V) : combines func op -> (forall v, coe (coe v) = coe v) ->
  sparse_new func coe (map coe a) = sparse_new func coe a.
Proof.
  intros CB Hi. unfold sparse_new. unfold len. rewrite map_length. destruct (Z.of_nat (length a) =? 0); [reflexivity|].
  assert (E : forall t, forM (zrange 0 (Z.of_nat (length a))) (fun i t => x <- lget (map coe a) i ;; tab_set coe t i 0 (c1 func (Some x))) t =
    forM (zrange 0 (Z.of_nat (length a))) (fun i t => x <- lget a i ;; tab_set coe t i 0 (c1 func (Some x))) t).
  { apply forM_ext. intros i t. rewrite lget_map. destruct (lget a i) as [x| |]; cbn [bind]; [|reflexivity|reflexivity].
    rewrite !(cb1 _ _ CB). unfold tab_set. cbn [option_map]. rewrite Hi. reflexivity. }
  rewrite E. reflexivity.
Qed.
Lemma fold_closed {V} (op : V -> V -> V) (coe : V -> V) : (forall x y, coe (op (coe x) (coe y)) = op (coe x) (coe y)) -> (forall v, coe (coe v) = coe v) ->
  forall l x, coe x = x -> Forall (fun v => coe v = v) l -> coe (fold_left op l x) = fold_left op l x.
Proof.
  intros Hc Hi. induction l as [|y l IH]; intros x Hx F; [exact Hx|]. inversion F as [|? ? Hy F']; subst. cbn [fold_left]. apply IH; [|exact F'].
  rewrite <- Hx, <- Hy. apply Hc.
Qed.

(** C47. The table stores int(value). For any array of numbers and any combiner of that kind that maps whole numbers to whole numbers,
    every query answers the fold of the range of the truncated values. *)
Theorem C47_sparse_table_truncates : forall (V : Type) (func : combiner V) (op : V -> V -> V) (int_of : V -> V) (a : list V),
  combines func op -> (forall v, int_of (int_of v) = int_of v) -> (forall x y, int_of (op (int_of x) (int_of y)) = op (int_of x) (int_of y)) -> a <> [] ->
  exists t, sparse_new func int_of a = Ret t /\ rqs_sparse_new func int_of a = Ret (t, len a) /\
    forall l r, 0 <= l -> l <= r -> r < len a ->
      sparse_query func t l r = Ret (fold1 op (range_of (map int_of a) l r)) /\
      rqs_sparse_query func (t, len a) l r = Ret (fold1 op (range_of (map int_of a) l r)) /\
      rqs_array_query func a l r = Ret (fold1 op (range_of a l r)).
Proof.
  intros V func op coe a CB Hi Hc Ha. assert (d : V) by (destruct a; [contradiction|assumption]).
  assert (Hr : forall l r v, rf op (map coe a) l r = Some v -> coe v = v).
  { intros l r v. unfold rf, range_of. set (x := firstn _ _).
    assert (F : Forall (fun v => coe v = v) x).
    { apply Forall_forall. intros y Hy. assert (Hy' : In y (map coe a)).
      { rewrite <- (firstn_skipn (Z.to_nat l) (map coe a)). apply in_or_app. right. rewrite <- (firstn_skipn (Z.to_nat (r - l + 1)) (skipn _ _)). apply in_or_app. left. exact Hy. }
      apply in_map_iff in Hy'. destruct Hy' as (z & <- & _). apply Hi. }
    destruct x as [|y x]; [discriminate|]. cbn [fold1]. intros [= <-]. inversion F; subst. apply fold_closed; assumption. }
  pose proof (sparse_new_ok func op CB coe (map coe a) d Hr) as W.
  assert (Hm : map coe a <> []) by (destruct a; [contradiction|discriminate]). specialize (W Hm). apply wp_ex in W. destruct W as (t & E & O).
  rewrite (sparse_new_coerced func op coe a CB Hi) in E. exists t. split; [exact E|].
  assert (Hl : 0 < len a) by (destruct a; [contradiction|unfold len; cbn [length]; lia]).
  split; [unfold rqs_sparse_new; rewrite E; destruct (Z.eqb_spec (len a) 0); [lia|reflexivity]|]. intros l r H1 H2 H3.
  assert (Lm : len (map coe a) = len a) by (unfold len; rewrite map_length; reflexivity).
  assert (Q : sparse_query func t l r = Ret (fold1 op (range_of (map coe a) l r))) by (apply (sparse_query_ok func op CB (map coe a) t l r O H1 H2); lia).
  split; [exact Q|]. split; [|apply (array_query_ok func op CB a l r H1 H2 H3)].
  unfold rqs_sparse_query. cbn [fst snd]. rewrite check_ok by lia. exact Q.
Qed.
Print Assumptions C47_sparse_table_truncates.
(** truncation to whole numbers, values given in halves, meets the hypotheses for minimum and summation *)
Example C47_truncation_meets_hypotheses : (forall v, int_of_halves (int_of_halves v) = int_of_halves v) /\
  (forall x y, int_of_halves (Z.min (int_of_halves x) (int_of_halves y)) = Z.min (int_of_halves x) (int_of_halves y)) /\
  (forall x y, int_of_halves (int_of_halves x + int_of_halves y) = int_of_halves x + int_of_halves y).
Proof.
  assert (Q : forall k, int_of_halves (2 * k) = 2 * k) by (intros k; unfold int_of_halves; rewrite (Z.mul_comm 2 k), Z.quot_mul by lia; lia).
  assert (M : forall x, exists k, int_of_halves x = 2 * k) by (intros x; exists (Z.quot x 2); reflexivity).
  split; [intros v; destruct (M v) as [k ->]; apply Q|]. split; intros x y; destruct (M x) as [k ->], (M y) as [m ->].
  - replace (Z.min (2 * k) (2 * m)) with (2 * Z.min k m) by lia. apply Q.
  - replace (2 * k + 2 * m) with (2 * (k + m)) by lia. apply Q.
Qed.
Example C47_truncates_case : (o <- rqs_sparse_new py_summation int_of_halves [3; 5; -3; 7; 2] ;; rqs_sparse_query py_summation o 1 4) = Ret (Some 10).
Proof. vm_compute. reflexivity. Qed.
