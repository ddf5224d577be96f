(** Base: the fragment of Python semantics shared by all models.
    - exceptions are values ([Raise]); a [while] loop runs on explicit fuel and yields
      [OutOfFuel] when it is exhausted (so a theorem concluding [= Ret _] includes termination);
    - Python ints are [Z]; Python lists are [list];
    - [aget]/[aset] are the array accesses of
      pydatastructs/linear_data_structures/arrays.py (OneDimensionalArray, lines 131-143). *)
From Coq Require Export List Arith ZArith Lia Bool Permutation.
Export ListNotations.
Global Open Scope Z_scope.
Global Arguments Z.mul : simpl never.
Global Arguments Z.add : simpl never.
Global Arguments Z.sub : simpl never.
Global Arguments Z.div : simpl never.
Global Arguments Z.modulo : simpl never.
Global Arguments Z.pow : simpl never.
Global Arguments Z.max : simpl never.
Global Arguments Z.min : simpl never.

Inductive exn := IndexError | ValueError | KeyError | TypeError
  | ZeroDivisionError | NotImplementedError | AttributeError | StopIteration
  | OverflowError | RuntimeError | SystemError | AssertionError.

Inductive res (A : Type) := Ret (a : A) | Raise (e : exn) | OutOfFuel.
Arguments Ret {A} a.  Arguments Raise {A} e.  Arguments OutOfFuel {A}.

Definition bind {A B} (m : res A) (k : A -> res B) : res B :=
  match m with Ret a => k a | Raise e => Raise e | OutOfFuel => OutOfFuel end.

Notation "x <- m ;; k" := (bind m (fun x => k))
  (at level 61, m at next level, right associativity).
Notation "' p <- m ;; k" := (bind m (fun x => match x with p => k end))
  (at level 61, p pattern, m at next level, right associativity).
Notation "m ;;; k" := (bind m (fun _ => k)) (at level 61, right associativity).

(** [for x in l: body] over a mutable state [s]. *)
Fixpoint forM {B S} (l : list B) (body : B -> S -> res S) (s : S) : res S :=
  match l with
  | [] => Ret s
  | b :: l' => s' <- body b s ;; forM l' body s'
  end.

(** [while True: ...]: the body says whether to go round again or to leave the loop. *)
Inductive ctl (S R : Type) := Next (s : S) | Break (r : R).
Arguments Next {S R} s.  Arguments Break {S R} r.

Fixpoint while_loop {S R} (fuel : nat) (body : S -> res (ctl S R)) (s : S) : res R :=
  match fuel with
  | O => OutOfFuel
  | S f => match body s with
           | Ret (Next s') => while_loop f body s'
           | Ret (Break r) => Ret r
           | Raise e => Raise e
           | OutOfFuel => OutOfFuel
           end
  end.

(** range(lo, hi) *)
Definition zrange (lo hi : Z) : list Z :=
  map (fun k => lo + Z.of_nat k) (seq 0 (Z.to_nat (hi - lo))).
(** range(lo, hi, step) for step > 0 *)
Definition zrange_step (lo hi step : Z) : list Z :=
  map (fun k => lo + step * Z.of_nat k) (seq 0 (Z.to_nat ((hi - lo + step - 1) / step))).
(** range(hi, lo, -1) *)
Definition zrange_down (hi lo : Z) : list Z :=
  map (fun k => hi - Z.of_nat k) (seq 0 (Z.to_nat (hi - lo))).

Definition len {V} (a : list V) : Z := Z.of_nat (length a).

Fixpoint upd {V} (a : list V) (n : nat) (v : V) : list V :=
  match a, n with
  | [], _ => []
  | _ :: t, O => v :: t
  | x :: t, S n' => x :: upd t n' v
  end.

(** OneDimensionalArray.__getitem__ (arrays.py 131-135): IndexError unless 0 <= i < size. *)
Definition aget {V} (a : list V) (i : Z) : res V :=
  if (i <? 0) || (len a <=? i) then Raise IndexError
  else match nth_error a (Z.to_nat i) with Some v => Ret v | None => Raise IndexError end.

(** OneDimensionalArray.__setitem__ (arrays.py 137-143) on an already coerced element: this is
    the Python list store, so negative indices wrap once and others raise IndexError. *)
Definition aset {V} (a : list V) (i : Z) (v : V) : res (list V) :=
  let j := if i <? 0 then i + len a else i in
  if (j <? 0) || (len a <=? j) then Raise IndexError
  else Ret (upd a (Z.to_nat j) v).

(** Python [list.__getitem__]: negative indices wrap once. *)
Definition lget {V} (a : list V) (i : Z) : res V :=
  let j := if i <? 0 then i + len a else i in aget a j.

(** ** Total-correctness weakest precondition *)
Definition wp {A} (m : res A) (Q : A -> Prop) : Prop :=
  match m with Ret a => Q a | _ => False end.

Lemma wp_ret A (a : A) (Q : A -> Prop) : Q a -> wp (Ret a) Q.
Proof. exact (fun H => H). Qed.
Lemma wp_bind A B (m : res A) (k : A -> res B) (Q : B -> Prop) :
  wp m (fun a => wp (k a) Q) -> wp (bind m k) Q.
Proof. destruct m; simpl; auto. Qed.
Lemma wp_mono A (m : res A) (P Q : A -> Prop) :
  wp m P -> (forall a, P a -> Q a) -> wp m Q.
Proof. destruct m; simpl; auto. Qed.
Lemma wp_ex A (m : res A) (Q : A -> Prop) : wp m Q <-> exists a, m = Ret a /\ Q a.
Proof.
  destruct m; simpl; split; intros H; eauto; try easy;
    destruct H as (x & E & Hx); inversion E; subst; assumption.
Qed.
Lemma wp_eq A (m : res A) a (Q : A -> Prop) : m = Ret a -> Q a -> wp m Q.
Proof. intros ->; exact (fun H => H). Qed.

Lemma wp_while S R (I : S -> Prop) (m : S -> nat) (Q : R -> Prop) body :
  (forall s, I s -> wp (body s) (fun r => match r with
       | Next s' => I s' /\ (m s' < m s)%nat | Break r => Q r end)) ->
  forall fuel s, I s -> (m s < fuel)%nat -> wp (while_loop fuel body s) Q.
Proof.
  intros Hb fuel; induction fuel as [|f IH]; intros s HI Hm; [lia|].
  cbn [while_loop]. specialize (Hb s HI).
  destruct (body s) as [[s'|r]| |]; simpl in Hb; try contradiction; [|exact Hb].
  destruct Hb as [HI' Hm']; apply IH; [exact HI'|lia].
Qed.

Lemma wp_forM B S (l : list B) (body : B -> S -> res S) (I : list B -> S -> Prop) :
  (forall pre b post s, l = pre ++ b :: post -> I pre s -> wp (body b s) (I (pre ++ [b]))) ->
  forall s, I [] s -> wp (forM l body s) (I l).
Proof.
  intros Hb.
  assert (G : forall rest pre s, l = pre ++ rest -> I pre s -> wp (forM rest body s) (I l)).
  { induction rest as [|b rest IH]; intros pre s E HI.
    - simpl. rewrite app_nil_r in E. subst l. exact HI.
    - simpl. apply wp_bind. eapply wp_mono; [apply (Hb pre b rest s E HI)|].
      intros s' HI'. apply (IH (pre ++ [b])); [rewrite <- app_assoc; exact E|exact HI']. }
  intros s HI; apply (G l []); auto.
Qed.

Lemma zrange_nil lo hi : hi <= lo -> zrange lo hi = [].
Proof. intros H; unfold zrange. replace (Z.to_nat (hi - lo)) with O by lia. reflexivity. Qed.

Lemma zrange_cons lo hi : lo < hi -> zrange lo hi = lo :: zrange (lo + 1) hi.
Proof.
  intros H; unfold zrange. replace (Z.to_nat (hi - lo)) with (S (Z.to_nat (hi - (lo+1)))) by lia.
  cbn [seq map]. f_equal; [lia|]. rewrite <- seq_shift, map_map. apply map_ext; intros; lia.
Qed.

Lemma zrange_snoc lo hi : lo < hi -> zrange lo hi = zrange lo (hi - 1) ++ [hi - 1].
Proof.
  intros H; unfold zrange. replace (Z.to_nat (hi - lo)) with (Z.to_nat (hi - 1 - lo) + 1)%nat by lia.
  rewrite seq_app, map_app. cbn [seq map]. f_equal. f_equal. lia.
Qed.

Lemma zrange_in lo hi i : In i (zrange lo hi) <-> lo <= i < hi.
Proof.
  unfold zrange; rewrite in_map_iff; split.
  - intros (k & E & Hk); apply in_seq in Hk; lia.
  - intros H; exists (Z.to_nat (i - lo)); split; [lia|apply in_seq; lia].
Qed.

Lemma zrange_length lo hi : length (zrange lo hi) = Z.to_nat (hi - lo).
Proof. unfold zrange; rewrite map_length, seq_length; reflexivity. Qed.

Lemma zrange_split lo mid hi : lo <= mid <= hi -> zrange lo hi = zrange lo mid ++ zrange mid hi.
Proof.
  intros H; unfold zrange.
  replace (Z.to_nat (hi - lo)) with (Z.to_nat (mid - lo) + Z.to_nat (hi - mid))%nat by lia.
  rewrite seq_app, map_app. f_equal.
  replace (0 + Z.to_nat (mid - lo))%nat with (Z.to_nat (mid - lo) + 0)%nat by lia.
  rewrite <- (map_map Z.of_nat (fun k => lo + k)).
  rewrite <- (map_map Z.of_nat (fun k => mid + k)).
  generalize (Z.to_nat (hi - mid)) as n. intro n.
  assert (E : forall n b, seq (Z.to_nat (mid - lo) + b) n = map (fun k => (Z.to_nat (mid-lo) + k)%nat) (seq b n)).
  { induction n0; intros; simpl; [reflexivity|]. f_equal.
    rewrite <- IHn0. f_equal; lia. }
  rewrite E, !map_map. apply map_ext; intros; lia.
Qed.

Lemma zrange_down_nil hi lo : hi <= lo -> zrange_down hi lo = [].
Proof. intros H; unfold zrange_down. replace (Z.to_nat (hi - lo)) with O by lia. reflexivity. Qed.

Lemma zrange_down_cons hi lo : lo < hi -> zrange_down hi lo = hi :: zrange_down (hi - 1) lo.
Proof.
  intros H; unfold zrange_down. replace (Z.to_nat (hi - lo)) with (S (Z.to_nat (hi - 1 - lo))) by lia.
  cbn [seq map]. f_equal; [lia|]. rewrite <- seq_shift, map_map. apply map_ext; intros; lia.
Qed.

Lemma zrange_step_nil lo hi st : 0 < st -> hi <= lo -> zrange_step lo hi st = [].
Proof.
  intros H1 H2; unfold zrange_step.
  assert ((hi - lo + st - 1) / st <= 0).
  { assert ((hi - lo + st - 1) / st < 1); [apply Z.div_lt_upper_bound; lia|lia]. }
  replace (Z.to_nat ((hi - lo + st - 1) / st)) with O by lia. reflexivity.
Qed.

Lemma zrange_step_cons lo hi st : 0 < st -> lo < hi ->
  zrange_step lo hi st = lo :: zrange_step (lo + st) hi st.
Proof.
  intros H1 H2; unfold zrange_step.
  assert (E : (hi - lo + st - 1) / st = (hi - (lo + st) + st - 1) / st + 1).
  { replace (hi - lo + st - 1) with (hi - (lo + st) + st - 1 + 1 * st) by lia.
    rewrite Z.div_add by lia. lia. }
  assert (0 <= (hi - (lo + st) + st - 1) / st) by (apply Z.div_pos; lia).
  rewrite E. replace (Z.to_nat (_ + 1)) with (S (Z.to_nat ((hi - (lo + st) + st - 1) / st))) by lia.
  cbn [seq map]. f_equal; [lia|]. rewrite <- seq_shift, map_map. apply map_ext; intros; lia.
Qed.

(** Loop rules with an index-based invariant. *)
Lemma wp_for_range S lo hi (body : Z -> S -> res S) (I : Z -> S -> Prop) s (Q : S -> Prop) :
  I lo s ->
  (forall i s, lo <= i < hi -> I i s -> wp (body i s) (I (i + 1))) ->
  (forall s, I (Z.max lo hi) s -> Q s) ->
  wp (forM (zrange lo hi) body s) Q.
Proof.
  intros H0 Hb HQ.
  destruct (Z_le_gt_dec hi lo) as [Hle|Hgt].
  { rewrite zrange_nil by lia. simpl. apply HQ. replace (Z.max lo hi) with lo by lia. exact H0. }
  replace (Z.max lo hi) with hi in HQ by lia.
  assert (G : forall n k s, lo <= k <= hi -> Z.to_nat (hi - k) = n -> I k s -> wp (forM (zrange k hi) body s) Q).
  { induction n as [|n IH]; intros k s1 Hk En HI.
    - rewrite zrange_nil by lia. simpl. apply HQ. replace hi with k by lia. exact HI.
    - rewrite zrange_cons by lia. cbn [forM]. apply wp_bind.
      eapply wp_mono; [apply Hb; [lia|exact HI]|]. intros s2 HI2. apply IH; [lia|lia|exact HI2]. }
  apply (G (Z.to_nat (hi - lo)) lo); auto; lia.
Qed.

Lemma wp_for_down S hi lo (body : Z -> S -> res S) (I : Z -> S -> Prop) s (Q : S -> Prop) :
  I hi s ->
  (forall i s, lo < i <= hi -> I i s -> wp (body i s) (I (i - 1))) ->
  (forall s, I (Z.min lo hi) s -> Q s) ->
  wp (forM (zrange_down hi lo) body s) Q.
Proof.
  intros H0 Hb HQ.
  destruct (Z_le_gt_dec hi lo) as [Hle|Hgt].
  { rewrite zrange_down_nil by lia. simpl. apply HQ. replace (Z.min lo hi) with hi by lia. exact H0. }
  replace (Z.min lo hi) with lo in HQ by lia.
  assert (G : forall n k s, lo <= k <= hi -> Z.to_nat (k - lo) = n -> I k s -> wp (forM (zrange_down k lo) body s) Q).
  { induction n as [|n IH]; intros k s1 Hk En HI.
    - rewrite zrange_down_nil by lia. simpl. apply HQ. replace lo with k by lia. exact HI.
    - rewrite zrange_down_cons by lia. cbn [forM]. apply wp_bind.
      eapply wp_mono; [apply Hb; [lia|exact HI]|]. intros s2 HI2. apply IH; [lia|lia|exact HI2]. }
  apply (G (Z.to_nat (hi - lo)) hi); auto; lia.
Qed.

(** ** Arrays *)
Lemma len_nonneg V (a : list V) : 0 <= len a.
Proof. unfold len; lia. Qed.
Lemma length_upd V (a : list V) n v : length (upd a n v) = length a.
Proof. revert n; induction a as [|x a IH]; intros [|n]; simpl; auto. Qed.
Lemma len_upd V (a : list V) n v : len (upd a n v) = len a.
Proof. unfold len; rewrite length_upd; reflexivity. Qed.
Lemma nth_error_upd V (a : list V) n m v :
  nth_error (upd a n v) m = if (n =? m)%nat && (n <? length a)%nat then Some v else nth_error a m.
Proof.
  revert n m; induction a as [|x a IH]; intros n m.
  - simpl. rewrite andb_comm. destruct n; reflexivity.
  - destruct n as [|n], m as [|m]; simpl; try reflexivity. rewrite IH. reflexivity.
Qed.
Lemma nth_upd V (a : list V) n m v d : (n < length a)%nat ->
  nth m (upd a n v) d = if (n =? m)%nat then v else nth m a d.
Proof.
  revert n m; induction a as [|x a IH]; intros n m H; [simpl in H; lia|].
  destruct n as [|n], m as [|m]; simpl in *; try reflexivity. apply IH; lia.
Qed.
Lemma upd_app1 V (a b : list V) n v : (n < length a)%nat -> upd (a ++ b) n v = upd a n v ++ b.
Proof.
  revert n; induction a as [|x a IH]; intros n H; simpl in *; [lia|].
  destruct n; simpl; [reflexivity|]. f_equal; apply IH; lia.
Qed.
Lemma upd_app2 V (a b : list V) n v : (length a <= n)%nat -> upd (a ++ b) n v = a ++ upd b (n - length a) v.
Proof.
  revert n; induction a as [|x a IH]; intros n H; simpl in *; [f_equal; lia|].
  destruct n; simpl; [lia|]. f_equal; apply IH; lia.
Qed.
Lemma upd_split V (a : list V) n v : (n < length a)%nat ->
  upd a n v = firstn n a ++ v :: skipn (S n) a.
Proof.
  revert n; induction a as [|x a IH]; intros n H; simpl in *; [lia|].
  destruct n; simpl; [reflexivity|]. f_equal. rewrite IH by lia. reflexivity.
Qed.
Lemma list_split_nth V (a : list V) n d : (n < length a)%nat ->
  a = firstn n a ++ nth n a d :: skipn (S n) a.
Proof.
  revert n; induction a as [|x a IH]; intros n H; simpl in *; [lia|].
  destruct n; simpl; [reflexivity|]. f_equal. apply IH; lia.
Qed.
Lemma upd_nth_same V (a : list V) n d : upd a n (nth n a d) = a.
Proof. revert n; induction a as [|x a IH]; intros [|n]; simpl; try reflexivity. f_equal; apply IH. Qed.
Lemma upd_upd_same V (a : list V) n v w : upd (upd a n v) n w = upd a n w.
Proof. revert n; induction a as [|x a IH]; intros [|n]; simpl; try reflexivity. f_equal; apply IH. Qed.
Lemma upd_comm V (a : list V) n m v w : n <> m -> upd (upd a n v) m w = upd (upd a m w) n v.
Proof.
  revert n m; induction a as [|x a IH]; intros [|n] [|m] H; simpl; try reflexivity; try lia.
  f_equal; apply IH; lia.
Qed.

Definition zn {V} (d : V) (a : list V) (i : Z) : V := nth (Z.to_nat i) a d.
Definition zupd {V} (a : list V) (i : Z) (v : V) : list V := upd a (Z.to_nat i) v.

Lemma len_zupd V (a : list V) i v : len (zupd a i v) = len a.
Proof. apply len_upd. Qed.
Lemma zn_zupd V (d : V) a i j v : 0 <= i < len a -> 0 <= j ->
  zn d (zupd a i v) j = if i =? j then v else zn d a j.
Proof.
  unfold zn, zupd, len; intros H1 H2. rewrite nth_upd by lia.
  destruct (Nat.eqb_spec (Z.to_nat i) (Z.to_nat j)), (Z.eqb_spec i j); auto; lia.
Qed.
Lemma zn_zupd_eq V (d : V) a i v : 0 <= i < len a -> zn d (zupd a i v) i = v.
Proof. intros; rewrite zn_zupd by lia. rewrite Z.eqb_refl; reflexivity. Qed.
Lemma zn_zupd_ne V (d : V) a i j v : 0 <= i < len a -> 0 <= j -> i <> j -> zn d (zupd a i v) j = zn d a j.
Proof. intros; rewrite zn_zupd by lia. destruct (Z.eqb_spec i j); [lia|reflexivity]. Qed.
Lemma aget_ok V (d : V) a i : 0 <= i < len a -> aget a i = Ret (zn d a i).
Proof.
  intros H; unfold aget, zn. destruct (Z.ltb_spec i 0); [lia|]. destruct (Z.leb_spec (len a) i); [lia|].
  simpl. rewrite (nth_error_nth' a d) by (unfold len in H; lia). reflexivity.
Qed.
Lemma aget_err V (a : list V) i : i < 0 \/ len a <= i -> aget a i = Raise IndexError.
Proof.
  intros H; unfold aget. destruct (Z.ltb_spec i 0); [reflexivity|].
  destruct (Z.leb_spec (len a) i); [reflexivity|lia].
Qed.
Lemma aset_ok V (a : list V) i v : 0 <= i < len a -> aset a i v = Ret (zupd a i v).
Proof.
  intros H; unfold aset, zupd. destruct (Z.ltb_spec i 0); [lia|].
  destruct (Z.ltb_spec i 0); [lia|]. destruct (Z.leb_spec (len a) i); [lia|]. reflexivity.
Qed.
Lemma lget_ok V (d : V) a i : 0 <= i < len a -> lget a i = Ret (zn d a i).
Proof.
  intros H; unfold lget. destruct (Z.ltb_spec i 0); [lia|]. apply aget_ok; lia.
Qed.
Lemma wp_aget V (d : V) a i (Q : V -> Prop) : 0 <= i < len a -> Q (zn d a i) -> wp (aget a i) Q.
Proof. intros H HQ; rewrite (aget_ok V d) by exact H; exact HQ. Qed.
Lemma wp_aset V (a : list V) i v (Q : list V -> Prop) : 0 <= i < len a -> Q (zupd a i v) -> wp (aset a i v) Q.
Proof. intros H HQ; rewrite aset_ok by exact H; exact HQ. Qed.

Lemma zn_ext V (d : V) a b : len a = len b -> (forall i, 0 <= i < len a -> zn d a i = zn d b i) -> a = b.
Proof.
  unfold len, zn; intros Hl H. apply (nth_ext a b d d); [lia|].
  intros n Hn. specialize (H (Z.of_nat n)). rewrite Nat2Z.id in H. apply H; lia.
Qed.

(** swapping two cells permutes the array *)
Definition swapz {V} (d : V) (a : list V) (i j : Z) : list V :=
  zupd (zupd a i (zn d a j)) j (zn d a i).

Lemma upd_perm_hole V (a : list V) n v d : (n < length a)%nat ->
  Permutation (nth n a d :: upd a n v) (v :: a).
Proof.
  intros H. rewrite upd_split by exact H. rewrite (list_split_nth V a n d H) at 4.
  rewrite <- !Permutation_middle. apply perm_swap.
Qed.
Lemma zupd_perm_hole V (a : list V) i v d : 0 <= i < len a ->
  Permutation (zn d a i :: zupd a i v) (v :: a).
Proof. intros H; apply upd_perm_hole. unfold len in H; lia. Qed.

Lemma len_swapz V (d : V) a i j : len (swapz d a i j) = len a.
Proof. unfold swapz; rewrite !len_zupd; reflexivity. Qed.
Lemma swapz_perm V (d : V) a i j : 0 <= i < len a -> 0 <= j < len a -> Permutation (swapz d a i j) a.
Proof.
  intros Hi Hj. unfold swapz.
  destruct (Z.eq_dec i j) as [->|Hne].
  - unfold zupd, zn. rewrite upd_nth_same, upd_nth_same. reflexivity.
  - apply (Permutation_cons_inv (a := zn d a j)).
    assert (E : zn d (zupd a i (zn d a j)) j = zn d a j) by (apply zn_zupd_ne; lia).
    rewrite <- E at 1. rewrite zupd_perm_hole by (rewrite len_zupd; lia).
    apply zupd_perm_hole; lia.
Qed.
Lemma zn_swapz V (d : V) a i j k : 0 <= i < len a -> 0 <= j < len a -> 0 <= k ->
  zn d (swapz d a i j) k = if k =? j then zn d a i else if k =? i then zn d a j else zn d a k.
Proof.
  intros Hi Hj Hk. unfold swapz. rewrite zn_zupd by (rewrite ?len_zupd; lia).
  rewrite (Z.eqb_sym k j). destruct (Z.eqb_spec j k); [reflexivity|].
  rewrite zn_zupd by lia. rewrite (Z.eqb_sym k i). reflexivity.
Qed.

Lemma fst_let A B C (x : A * B) (f : A -> B -> C) : (let (a, b) := x in f a b) = f (fst x) (snd x).
Proof. destruct x; reflexivity. Qed.

Ltac wp_bind_step := apply wp_bind.
Ltac wp_get d := apply (wp_aget _ d); [ | ].
Ltac wp_set := apply wp_aset; [ | ].
