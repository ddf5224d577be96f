(** C105, C106: bubble_sort and selection_sort with [backend=Backend.LLVM]. [fuel] bounds the number of basic blocks the
    compiled function executes: "exists F, forall fuel >= F" says that it returns. *)
From Coq Require Import String.
From Verif Require Import Base SortModel SortSpec SortProofs SortProofs2 CppModel CppSpec CppProofs LlvmModel LlvmSpec LlvmProofs LlvmWrap.
Open Scope Z_scope.

Lemma since_good c0 ss c : since c0 ss c -> good c0 -> good c.
Proof.
  induction 1 as [|V lt infer fits fuel s c a start end_ cc d ss _ IH]; [auto|]. intros G.
  destruct (sort_cache lt infer fits fuel s c a start end_ cc d) as [->|[dt ->]]; [auto|]. apply get_ptr_good. auto.
Qed.
Lemma process_good ss c : process ss c -> good c.
Proof. intros P. apply (since_good _ _ _ P). intros d p. discriminate. Qed.
Lemma since_keep c0 ss c d : since c0 ss c -> cache_find c0 d <> None -> cache_find c d <> None.
Proof.
  induction 1 as [|V lt infer fits fuel s c a start end_ cc dd ss _ IH]; [auto|]. intros G.
  destruct (sort_cache lt infer fits fuel s c a start end_ cc dd) as [->|[dt ->]]; [auto|]. apply get_ptr_keep. auto.
Qed.
Lemma process_sel ss c : process ss c -> ~ In BubbleSort ss -> c = [].
Proof.
  induction 1 as [|V lt infer fits fuel s c a start end_ cc d ss _ IH]; intros H; [reflexivity|].
  assert (E : c = []) by (apply IH; intros Hi; apply H; right; exact Hi). destruct s; [exfalso; apply H; left; reflexivity|].
  destruct (sort_cache lt infer fits fuel SelectionSort c a start end_ cc d) as [->|[dt ->]]; [exact E|]. rewrite get_ptr_sel_cache. exact E.
Qed.

(** C105. Whatever was sorted before in the process: the call returns, the range is sorted (None last), nothing else changes. *)
Theorem C105_llvm_bubble_sort_sorts : forall (V : Type) (lt : V -> V -> bool) infer fits (le : V -> V -> Prop) ss c
  (a : list (option V)) (start end_ : option Z) (d : option dtype) (dt : dtype),
  decides (fun x y => negb (lt y x)) le -> process ss c ->
  len a < 2 ^ 31 -> 0 <= range_start start < 2 ^ 63 -> (end_ = None \/ 0 <= range_end a end_ < 2 ^ 63) -> machine_type infer fits a d dt ->
  exists F, forall fuel, (F <= fuel)%nat ->
    exists b, fst (llvm_sort lt infer fits fuel BubbleSort c a start end_ false d) = Ret b /\
      sorts le a (range_start start) (Z.min (range_end a end_) (len a - 1)) b.
Proof.
  intros V lt infer fits le ss c a start end_ d dt D P Hl Hs He (M1 & M2 & M3).
  destruct (sort_ok lt infer fits le D BubbleSort c a start end_ d dt (process_good _ _ P) Hl Hs He M1 M3 M2 (or_introl eq_refl)) as (F & HF).
  exists F. intros fuel Hf. destruct (HF fuel Hf) as (b & c' & E & S & _). exists b. rewrite E. split; [reflexivity|exact S].
Qed.
Print Assumptions C105_llvm_bubble_sort_sorts.
Lemma zlt_decides : decides (fun x y => negb (y <? x)) Z.le.
Proof. constructor; [intros x y; destruct (Z.ltb_spec y x); cbn; (discriminate || lia)..|intros; lia]. Qed.
(** For int arrays with no dtype argument, the elements must fit in 64 bits, and then the result is the one of the Python backend. *)
Theorem C105_llvm_python_same : forall ss c (a : list (option Z)) (start end_ : option Z),
  process ss c -> len a < 2 ^ 31 -> 0 <= range_start start < 2 ^ 63 -> 0 <= range_end a end_ < len a ->
  (forall v, In (Some v) a -> - 2 ^ 63 <= v < 2 ^ 63) ->
  exists F, forall fuel, (F <= fuel)%nat ->
    fst (llvm_int_sort fuel BubbleSort c a start end_ false None) = bubble_sort Z.leb a (range_start start) (range_end a end_).
Proof.
  intros ss c a start end_ P Hl Hs He Hv.
  destruct (C105_llvm_bubble_sort_sorts Z Z.ltb (fun _ => Int64) int_fits Z.le ss c a start end_ None Int64 zlt_decides P Hl Hs ltac:(right; lia)) as (F & HF).
  { split; [discriminate|]. split; [right; split; [reflexivity|reflexivity]|]. intros v Hi. specialize (Hv v Hi). unfold int_fits.
    destruct (Z.leb_spec (- 2 ^ 63) v), (Z.ltb_spec v (2 ^ 63)); (reflexivity || lia). }
  exists F. intros fuel Hf. destruct (HF fuel Hf) as (b & E & S). unfold llvm_int_sort. rewrite E. rewrite Z.min_l in S by lia.
  assert (DZ : decides Z.leb Z.le) by (constructor; [intros x y; destruct (Z.leb_spec x y); (discriminate || lia)..|intros; lia]).
  pose proof (bubble_ok Z.leb Z.le DZ a (range_start start) (range_end a end_) ltac:(lia) ltac:(lia)) as HB.
  apply wp_ex in HB. destruct HB as (b' & -> & S'). f_equal. apply (sorts_unique Z.le ltac:(intros; lia) a (range_start start) (range_end a end_)); auto; lia.
Qed.
Print Assumptions C105_llvm_python_same.
(** an element outside 64 bits: OverflowError, where the Python backend sorts *)
Theorem C105_llvm_big_int_refuted : forall fuel ss c, process ss c ->
  fst (llvm_int_sort fuel BubbleSort c [Some (2 ^ 63); Some 1] None None false None) = Raise OverflowError /\
  bubble_sort Z.leb [Some (2 ^ 63); Some 1] 0 1 = Ret [Some 1; Some (2 ^ 63)].
Proof.
  intros fuel ss c P. split; [|vm_compute; reflexivity]. unfold llvm_int_sort. rewrite unfold_sort by (cbn; lia).
  cbn zeta. change (vals_of _) with [2 ^ 63; 1]. cbn match beta. unfold call_sort.
  pose proof (get_ptr_ok BubbleSort c Int64 (process_good _ _ P) ltac:(discriminate) (or_introl eq_refl)) as [E _].
  destruct (get_ptr BubbleSort c Int64) as [p c']. cbn [fst] in *. rewrite E. reflexivity.
Qed.
Print Assumptions C105_llvm_big_int_refuted.
(** the backend accepts no comparator: NotImplementedError for every non-empty array, range and comparator *)
Theorem C105_llvm_custom_comp_refuted : forall (V : Type) (lt : V -> V -> bool) infer fits fuel s c (a : list (option V)) start end_ d,
  0 <= range_start start < len a -> range_start start <= range_end a end_ -> len a < 2 ^ 63 -> range_end a end_ < 2 ^ 63 ->
  llvm_sort lt infer fits fuel s c a start end_ true d = (Raise NotImplementedError, c).
Proof.
  intros V lt infer fits fuel s c a start end_ d Hs Hse Hl He. unfold llvm_sort. destruct (Z.eqb_spec (len a) 0); [lia|].
  assert (Hw : 2 ^ 63 < word) by (rewrite word_val; lia).
  assert (E1 : wrap_lower start = Ret (range_start start)).
  { destruct start as [z|]; [|reflexivity]. cbn in *. unfold as_ssize. destruct (Z.ltb_spec z (- 2 ^ 63)), (Z.leb_spec (2 ^ 63) z); try lia.
    cbn. rewrite u64_id by lia. reflexivity. }
  assert (E2 : wrap_upper (len a) end_ = Ret (range_end a end_)).
  { destruct end_ as [z|]; [|reflexivity]. cbn in *. unfold as_ssize. destruct (Z.ltb_spec z (- 2 ^ 63)), (Z.leb_spec (2 ^ 63) z); try lia.
    cbn. rewrite u64_id by lia. reflexivity. }
  rewrite E1, E2. cbn [bind]. destruct (Z.ltb_spec (range_end a end_) (range_start start)); [lia|].
  destruct (Z.leb_spec (len a) (range_start start)); [lia|]. reflexivity.
Qed.
Print Assumptions C105_llvm_custom_comp_refuted.
(** the hypotheses are met: a fresh process, an int array with a hole, the range 1..3 of 5 cells, and the computed result *)
Example C105_case : process [] [] /\ machine_type (fun _ : Z => Int64) int_fits [Some 9; Some 3; None; Some 1; Some 0] None Int64 /\
  fst (llvm_int_sort 100 BubbleSort [] [Some 9; Some 3; None; Some 1; Some 0] (Some 1) (Some 3) false None) = Ret [Some 9; Some 1; Some 3; None; Some 0].
Proof.
  split; [constructor|]. split; [|vm_compute; reflexivity]. split; [discriminate|]. split; [right; split; reflexivity|].
  intros v [H|[H|[H|[H|[H|[]]]]]]; inversion H; reflexivity.
Qed.

(** C106. selection_sort can not be compiled: as long as bubble_sort was not used in the process, every selection_sort call on a
    range with a value in it raises RuntimeError. *)
Theorem C106_llvm_selection_sort_refuted : forall ss c, process ss c -> ~ In BubbleSort ss ->
  forall (V : Type) (lt : V -> V -> bool) infer fits fuel (a : list (option V)) (start end_ : option Z) (d : option dtype) (dt : dtype),
  len a < 2 ^ 31 -> 0 <= range_start start -> range_end a end_ < 2 ^ 63 -> machine_type infer fits a d dt -> has_value a start end_ ->
  fst (llvm_sort lt infer fits fuel SelectionSort c a start end_ false d) = Raise RuntimeError.
Proof.
  intros ss c P Hn V lt infer fits fuel a start end_ d dt Hl Hs He (M1 & M2 & M3) (i & Hi & Hil & Hne).
  rewrite (sel_raises lt infer fits fuel c a start end_ d dt i); auto. rewrite (process_sel _ _ P Hn). reflexivity.
Qed.
Print Assumptions C106_llvm_selection_sort_refuted.
(** After a bubble_sort that had something to sort, and whatever sorts came after it: selection_sort on the same machine type runs the
    code compiled for bubble_sort, and sorts. *)
Theorem C106_llvm_selection_after_bubble_partial : forall (V W : Type) (lt : V -> V -> bool) infer fits (le : V -> V -> Prop)
  (ltW : W -> W -> bool) inferW fitsW (leW : W -> W -> Prop) ss c dt
  (w : list (option W)) startw endw dw (a : list (option V)) (start end_ : option Z) (d : option dtype),
  decides (fun x y => negb (lt y x)) le -> decides (fun x y => negb (ltW y x)) leW -> process ss c ->
  len w < 2 ^ 31 -> 0 <= range_start startw < 2 ^ 63 -> (endw = None \/ 0 <= range_end w endw < 2 ^ 63) -> machine_type inferW fitsW w dw dt -> has_value w startw endw ->
  len a < 2 ^ 31 -> 0 <= range_start start < 2 ^ 63 -> (end_ = None \/ 0 <= range_end a end_ < 2 ^ 63) -> machine_type infer fits a d dt ->
  exists F, forall fuel, (F <= fuel)%nat -> forall ss' c', since (snd (llvm_sort ltW inferW fitsW fuel BubbleSort c w startw endw false dw)) ss' c' ->
    exists F', forall fuel', (F' <= fuel')%nat ->
    exists b, fst (llvm_sort lt infer fits fuel' SelectionSort c' a start end_ false d) = Ret b /\
      sorts le a (range_start start) (Z.min (range_end a end_) (len a - 1)) b.
Proof.
  intros V W lt infer fits le ltW inferW fitsW leW ss c dt w startw endw dw a start end_ d D DW P Hlw Hsw Hew (N1 & N2 & N3) HV Hl Hs He (M1 & M2 & M3).
  destruct (sort_ok ltW inferW fitsW leW DW BubbleSort c w startw endw dw dt (process_good _ _ P) Hlw Hsw Hew N1 N3 N2 (or_introl eq_refl)) as (F & HF).
  exists F. intros fuel Hf ss' c' S. destruct (HF fuel Hf) as (bw & cw & E & _ & C).
  assert (G : good (snd (llvm_sort ltW inferW fitsW fuel BubbleSort c w startw endw false dw))).
  { apply (process_good (BubbleSort :: ss)). apply since_call. exact P. }
  rewrite E in S, G. cbn [snd] in S, G.
  destruct (sort_ok lt infer fits le D SelectionSort c' a start end_ d dt (since_good _ _ _ S G) Hl Hs He M1 M3 M2 (or_intror (since_keep _ _ _ _ S (C HV)))) as (F' & HF').
  exists F'. intros fuel' Hf'. destruct (HF' fuel' Hf') as (b & c'' & E' & SS & _). exists b. rewrite E'. split; [reflexivity|exact SS].
Qed.
Print Assumptions C106_llvm_selection_after_bubble_partial.
(** the hypotheses are met, and both behaviours computed: selection_sort before and after a bubble_sort *)
Example C106_case :
  let a := [Some 3; None; Some 1; Some 2] in
  process [] [] /\ has_value a None None /\ machine_type (fun _ : Z => Int64) int_fits a None Int64 /\
  fst (llvm_int_sort 200 SelectionSort [] a None None false None) = Raise RuntimeError /\
  (let c := snd (llvm_int_sort 200 BubbleSort [] [Some 5] None None false None) in
   fst (llvm_int_sort 200 SelectionSort c a None None false None) = Ret [Some 1; Some 2; Some 3; None]).
Proof.
  cbv zeta. split; [constructor|]. split; [exists 0; cbn; repeat split; (lia || discriminate)|]. split; [|split; vm_compute; reflexivity].
  split; [discriminate|]. split; [right; split; reflexivity|]. intros v [H|[H|[H|[H|[]]]]]; inversion H; reflexivity.
Qed.
