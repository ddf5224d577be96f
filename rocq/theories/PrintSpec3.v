(** Specification of the printed sparse table and of the printed OneDimensionalSegmentTree. *)
From Coq Require Import Permutation Sorted.
From Verif Require Import Base RangeSpec.

(** the rows of a sparse table over [a]: cell j of row i stands for the 2^j elements from i on, if there are that many *)
Definition sparse_cell {V} (op : V -> V -> V) (a : list V) (i j : Z) : option V :=
  if i + 2 ^ j <=? len a then fold1 op (range_of a i (i + 2 ^ j - 1)) else None.
Definition sparse_rows {V} (op : V -> V -> V) (a : list V) : list (list (option V)) :=
  map (fun i => map (fun j => sparse_cell op a (Z.of_nat i) (Z.of_nat j)) (seq 0 (S (Z.to_nat (Z.log2 (len a)))))) (seq 0 (length a)).

(** [t] is the decimal notation of [z]: code points of "-" and of digits, no needless leading zero *)
Definition decimal_of (z : Z) (t : list Z) : Prop :=
  exists ds, t = (if z <? 0 then [45] else []) ++ ds /\ ds <> [] /\ Forall (fun c => 48 <= c <= 57) ds /\
    (hd 0 ds = 48 -> ds = [48]) /\ fold_left (fun a c => 10 * a + (c - 48)) ds 0 = Z.abs z.
(** the code points of "[", the texts separated by ", ", "]" *)
Definition bracketed (items : list (list Z)) : list Z :=
  [91] ++ match items with [] => [] | x :: l => x ++ flat_map (fun y => [44; 32] ++ y) l end ++ [93].
(** the text of a cell: "None" or the number *)
Definition cell_text (v : option Z) (t : list Z) : Prop := match v with None => t = [78; 111; 110; 101] | Some z => decimal_of z t end.
(** the text of rows of cells: ['[1, None]', '[2, 3]'] *)
Definition rows_text (rows : list (list (option Z))) (t : list Z) : Prop :=
  exists texts, Forall2 (Forall2 cell_text) rows texts /\ t = bracketed (map (fun row => [39] ++ bracketed row ++ [39]) texts).

(** ** OneDimensionalSegmentTree *)
From Verif Require Import IntervalModel.
(** a printed row: left, key, data, right *)
Definition ist_row : Type := option Z * ikey * option (list (Z * Z)) * option Z.
Definition row_key (r : ist_row) : ikey := snd (fst (fst r)).
Definition row_data (r : ist_row) : option (list (Z * Z)) := snd (fst r).
(** the row that the number [i] in a row refers to: self.tree[i], from the end if i < 0 *)
Definition row_no (n i : Z) : Z := if i <? 0 then i + n else i.
Definition row_kids (n : Z) (r : ist_row) : list Z :=
  match r with (Some i, _, _, Some j) => [row_no n i; row_no n j] | _ => [] end.
(** reading the tree below the row number [i]: the intervals of its leaves from left to right; the interval of an inner row stretches from the first to the last *)
Inductive reads (rows : list ist_row) : Z -> list ikey -> Prop :=
| reads_leaf i k d : 0 <= row_no (len rows) i -> nth_error rows (Z.to_nat (row_no (len rows) i)) = Some (None, k, d, None) -> reads rows i [k]
| reads_node i l r d x xs y ys : 0 <= row_no (len rows) i ->
    nth_error rows (Z.to_nat (row_no (len rows) i)) = Some (Some l, IK (k_cl x) (k_lo x) (k_hi y) (k_cr y), d, Some r) ->
    reads rows l (x :: xs) -> reads rows r (ys ++ [y]) -> reads rows i ((x :: xs) ++ ys ++ [y]).
(** the line cut at the points [es]: open intervals and points in turn, one unit of room at both ends *)
Fixpoint cut (one prev : Z) (es : list Z) : list ikey :=
  match es with [] => [IK false prev (prev + one) false] | e :: es => IK false prev e false :: IK true e e true :: cut one e es end.
(** the whole interval [k] lies in the closed segment with the end points [s] *)
Definition covers (s : Z * Z) (k : ikey) : Prop := Z.min (fst s) (snd s) <= k_lo k /\ k_hi k <= Z.max (fst s) (snd s).
(** the row number [p] is where the segment [s] belongs: its interval is covered and that of its parent is not. (The interval (x, x), which is empty, is not
    used for the segment [x, x].) *)
Definition belongs (rows : list ist_row) (s : Z * Z) (p : nat) : Prop :=
  exists r, nth_error rows p = Some r /\ covers s (row_key r) /\
    (forall q, In q rows -> In (Z.of_nat p) (row_kids (len rows) q) -> ~ covers s (row_key q)) /\
    ~ (fst s = snd s /\ row_key r = IK false (fst s) (fst s) false).
Record shown_tree (one : Z) (segs : list (Z * Z)) (rows : list ist_row) : Prop := {
  (** the leaves, read from the last row, cut the line at the sorted end points *)
  sh_reads : exists e es, Sorted Z.le (e :: es) /\ Permutation (e :: es) (flat_map (fun s => [fst s; snd s]) segs) /\ reads rows (-1) (cut one (e - one) (e :: es));
  (** every row but the last is the child of exactly one row *)
  sh_kids : Permutation (flat_map (row_kids (len rows)) rows) (map Z.of_nat (seq 0 (length rows - 1)));
  sh_size : length rows = (8 * length segs + 1)%nat;
  (** each row lists exactly the segments that belong there, in the order given, smaller end first; None if there are none *)
  sh_data : forall p r, nth_error rows p = Some r -> exists ks, Sorted Peano.lt ks /\
    (forall k, In k ks <-> exists s, nth_error segs k = Some s /\ belongs rows s p) /\
    row_data r = match ks with [] => None | _ => Some (map (fun k => let s := nth k segs (0, 0) in (Z.min (fst s) (snd s), Z.max (fst s) (snd s))) ks) end }.
