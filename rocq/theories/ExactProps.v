(** Exact answers where C03, C23, C31, C38 and C72 are only partly true of the code: what the code does on every input of the
    given kind, including those on which the property fails. Specifications: MdaSpec.v, MatSpec.v, SearchSpec.v, SortSpec.v. *)
From Coq Require Import String.
From Verif Require Import Base ArraysModel ArraysProofs MdaSpec MdaProofs SortModel SortSpec SortProofs SortProofs3 BrickProofs SearchModel SearchSpec JumpProofs MatSpec MatProofs GraphModel AmCountProofs.
Open Scope list_scope.

(** C03. After every history, a tuple is either accepted, and then reading or writing through it is reading or writing through
    the one in-range tuple at the same row-major place modulo the number of cells, or rejected with IndexError by both. *)
Theorem C03_mda_accepts_exactly_partial : forall (A : Type) (conv : A -> res A) (dims : list Z) (ops : list (mda_op A)), dims <> [] -> Forall (fun d => 1 <= d) dims ->
  exists m0, mda_new dims = Ret m0 /\ let m := mda_run conv ops m0 in
    (forall t, accepts dims t -> exists u, Forall2 (fun d i => 0 <= i < d) dims u /\ row_major dims u = row_major dims t mod volume dims /\
       mda_get m t = mda_get m u /\ (forall e, mda_set m t e = mda_set m u e) /\ exists v, mda_get m t = Ret v) /\
    (forall t, ~ accepts dims t -> mda_get m t = Raise IndexError /\ forall e, mda_set m t e = Raise IndexError).
Proof.
  intros A conv dims ops Hne Hp. eexists. split; [apply mda_new_ok; assumption|]. cbv zeta.
  match goal with |- context [mda_run conv ops ?m] => assert (K : mda_ok dims (mda_run conv ops m)) end.
  { apply run_ok. split; [reflexivity|]. cbn [m_data]. pose proof (prod_pos dims Hp). rewrite len_repeat. lia. }
  split; [intros t Ht; exact (accepted dims _ t Hp K Ht)|intros t Ht; exact (rejected dims _ t Hp K Ht)].
Qed.
Print Assumptions C03_mda_accepts_exactly_partial.
(** [0;5;0] and [-1;0;0] of a 2x3x4 array are accepted and name [1;2;0] and [1;0;0]; [0;12;0] and [2;0;0] are rejected. *)
Example C03_exact_case : accepts [2;3;4] [0;5;0] /\ row_major [2;3;4] [1;2;0] = row_major [2;3;4] [0;5;0] mod volume [2;3;4] /\
  accepts [2;3;4] [-1;0;0] /\ row_major [2;3;4] [1;0;0] = row_major [2;3;4] [-1;0;0] mod volume [2;3;4] /\ ~ accepts [2;3;4] [0;12;0] /\ ~ accepts [2;3;4] [2;0;0].
Proof.
  assert (S : forall n, (n < length [2;3;4])%nat -> n = 0%nat \/ n = 1%nat \/ n = 2%nat) by (intros n Hn; cbn in Hn; lia).
  split; [split; [reflexivity|]; split; [intros n Hn; destruct (S n Hn) as [->|[->| ->]]; cbn; lia|cbn; lia]|]. split; [reflexivity|].
  split; [split; [reflexivity|]; split; [intros n Hn; destruct (S n Hn) as [->|[->| ->]]; cbn; lia|cbn; lia]|]. split; [reflexivity|].
  split; intros (_ & H1 & H2); [specialize (H1 1%nat ltac:(cbn; lia)); cbn in H1; lia|cbn in H2; lia].
Qed.

(** C23. For a total, transitive comparator (the default <= is one): brick_sort ends exactly when no two cells of the range are
    tied both ways. Then the range ends sorted ... *)
Theorem C23_brick_sort_range_partial : forall (A : Type) (comp : A -> A -> bool) (le : A -> A -> Prop) (a : list (option A)) (s e : Z) (fuel : nat),
  decides comp le -> 0 <= s -> e < len a ->
  (forall i j, s <= i -> i < j -> j <= e -> pcomp comp (zn None a i) (zn None a j) && pcomp comp (zn None a j) (zn None a i) = false) ->
  (length a * length a + 2 <= fuel)%nat ->
  exists b, brick_sort comp fuel a s e = Ret b /\ sorts le a s e b.
Proof. intros A comp le a s e fuel D H1 H2 H3 H4. apply wp_ex. exact (brick_range_ok comp le D a s e fuel H1 H2 H3 H4). Qed.
Print Assumptions C23_brick_sort_range_partial.
(** ... and otherwise it never ends, whatever the other cells. *)
Theorem C23_brick_sort_ties_diverge_refuted : forall (A : Type) (comp : A -> A -> bool) (a : list (option A)) (s e i j : Z),
  (forall x y, comp x y = true \/ comp y x = true) -> (forall x y z, comp x y = true -> comp y z = true -> comp x z = true) ->
  0 <= s -> e < len a -> s <= i -> i < j -> j <= e -> pcomp comp (zn None a i) (zn None a j) && pcomp comp (zn None a j) (zn None a i) = true ->
  forall fuel, brick_sort comp fuel a s e = OutOfFuel.
Proof. intros A comp a s e i j T TR H1 H2 H3 H4 H5 H6. apply (brick_diverges comp T TR a s e i j); auto. intros N. unfold no_tie in N. congruence. Qed.
Print Assumptions C23_brick_sort_ties_diverge_refuted.
(** equal elements outside the range do no harm; equal ones anywhere inside do *)
Example C23_exact_case : brick_sort Z.leb 100 [Some 5; Some 3; Some 1; Some 2; Some 5] 0 3 = Ret [Some 1; Some 2; Some 3; Some 5; Some 5] /\
  pcomp Z.leb (zn None [Some 5; Some 3; Some 1; Some 2; Some 5] 0) (zn None [Some 5; Some 3; Some 1; Some 2; Some 5] 4) &&
  pcomp Z.leb (zn None [Some 5; Some 3; Some 1; Some 2; Some 5] 4) (zn None [Some 5; Some 3; Some 1; Some 2; Some 5] 0) = true /\
  (forall x y, Z.leb x y = true \/ Z.leb y x = true) /\ (forall x y z, Z.leb x y = true -> Z.leb y z = true -> Z.leb x z = true).
Proof. split; [vm_compute; reflexivity|]. split; [reflexivity|]. split; intros; rewrite ?Z.leb_le in *; lia. Qed.

(** C31. With a start: when the array is ascending up to the end of the range, an answer is always an index holding the value
    (but it may lie before the start), and the answer is the exact one for the range when the value does not occur before the start. *)
Theorem C31_jump_search_from_partial : forall (A : Type) (d : A) (eqb comp : A -> A -> bool) (le : A -> A -> Prop) (a : list A) (v : A) (s e : Z),
  (forall x y, eqb x y = true <-> x = y) -> total_order le -> orders comp le -> (forall x, comp x x = false) -> 0 <= s -> s <= e -> e < len a -> ascending d le a 0 e ->
  exists r, jump_search eqb comp a v s e = Ret r /\ (forall i, r = Some i -> 0 <= i <= e /\ zn d a i = v) /\
    ((forall j, 0 <= j < s -> zn d a j <> v) -> some_index (fun i => zn d a i = v) s e r).
Proof. intros A d eqb comp le a v s e H TO OR I H1 H2 H3 H4. apply wp_ex. exact (jump_from d eqb comp le H TO a v s e OR I H1 H2 H3 H4). Qed.
Print Assumptions C31_jump_search_from_partial.
Example C31_from_case : jump_search Z.eqb Z.ltb [1; 3; 3; 8; 10; 12; 20] 12 3 6 = Ret (Some 5) /\ jump_search Z.eqb Z.ltb [1; 3; 3; 8; 10; 12; 20] 11 3 6 = Ret None /\
  jump_search Z.eqb Z.ltb [1; 3; 3; 8; 10; 12; 20] 8 5 6 = Ret (Some 3).
Proof. repeat apply conj; vm_compute; reflexivity. Qed.

(** C38. Rectangular n x m times m x p: when n <= m and p <= m the result is m x m, its entry (i, j) with i < n, j < p is the sum
    of the first n terms only, and every other entry is None (so it is the product exactly when n = m = p); otherwise IndexError. *)
Theorem C38_matrix_multiply_rectangular_partial : forall (n m p : Z) (m1 m2 : list (list Z)) (num_threads : Z),
  1 <= n -> 1 <= m -> 1 <= p -> rectangular n m m1 -> rectangular m p m2 ->
  (n <= m -> p <= m -> exists C, matrix_multiply_parallel m1 m2 num_threads = Ret C /\ len C = m /\ (forall i, 0 <= i < m -> len (zn [] C i) = m) /\
     forall i j, 0 <= i < m -> 0 <= j < m ->
       zn None (zn [] C i) j = if (i <? n) && (j <? p) then Some (sum_below (Z.to_nat n) (fun k => zn 0 (zn [] m1 i) k * zn 0 (zn [] m2 k) j)) else None) /\
  (m < n \/ m < p -> matrix_multiply_parallel m1 m2 num_threads = Raise IndexError).
Proof.
  intros n m p m1 m2 nt Hn Hm Hp S1 S2. split; [intros H1 H2; apply wp_ex; exact (mm_ok n m p m1 m2 Hn Hm Hp S1 S2 nt H1 H2)|].
  intros H. destruct (Z.lt_ge_cases m n); [exact (mm_tall n m p m1 m2 Hn Hm Hp S1 S2 nt ltac:(assumption))|]. apply (mm_wide n m p m1 m2); try assumption; lia.
Qed.
Print Assumptions C38_matrix_multiply_rectangular_partial.
Example C38_rect_case : rectangular 1 2 [[1; 2]] /\ rectangular 2 1 [[3]; [4]] /\ matrix_multiply_parallel [[1; 2]] [[3]; [4]] 2 = Ret [[Some 3; None]; [None; None]] /\
  rectangular 2 1 [[1]; [2]] /\ rectangular 1 2 [[3; 4]] /\ matrix_multiply_parallel [[1]; [2]] [[3; 4]] 2 = Raise IndexError.
Proof. repeat apply conj; try reflexivity; intros r H; cbn in H; intuition; subst; reflexivity. Qed.

(** C72. After every history num_edges is the number of distinct pairs named by an accepted add_edge or by a remove_edge whose
    source is a vertex: a removed edge stays counted, and removing an edge that was never there adds one. Any names. *)
Theorem C72_num_edges_counts_partial : forall (names : list string) (ops : list gop),
  exists g l, am_run names ops = Ret g /\ NoDup l /\ am_num_edges g = len l /\
    forall u v, In (u, v) l <-> In u names /\ ((In v names /\ exists c, In (GAddE u v c) ops) \/ In (GRemE u v) ops).
Proof.
  intros names ops. destruct (count_ok names ops) as (g & E & l & N & L & H). exists g, l. split; [exact E|]. split; [exact N|]. split; [exact L|]. intros u v. rewrite H. split.
  - intros ([n|n|a b c|a b] & Ho & X); cbn in X; try contradiction; destruct X as (-> & -> & X); [destruct X as [X Y]; split; [exact X|]; left; split; [exact Y|eauto]|split; [exact X|right; exact Ho]].
  - intros (Hu & [[Hv [c Hc]]|Hc]); [exists (GAddE u v c)|exists (GRemE u v)]; (split; [exact Hc|]); cbn; auto.
Qed.
Print Assumptions C72_num_edges_counts_partial.
Example C72_count_case : exists g, am_run ["a"; "b"]%string [GAddE "a" "b" None; GRemE "a" "b"; GRemE "b" "a"; GRemE "a" "zz"; GAddE "a" "zz" None]%string = Ret g /\ am_num_edges g = 3.
Proof. eexists. split; [vm_compute; reflexivity|]. reflexivity. Qed.
