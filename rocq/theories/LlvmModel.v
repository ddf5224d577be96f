(** Model of the LLVM backend of bubble_sort and selection_sort, as reached through [backend=Backend.LLVM]:
    - the Python code that builds the LLVM IR with llvmlite and caches function addresses
      (linear_data_structures/_backend/cpp/algorithms/llvm_algorithms.py),
    - a semantics of the IR fragment it builds (our reading of the LLVM language reference; the LLVM compiler itself and its
      optimisation passes, llvm_algorithms.py 147-155, are trusted),
    - the C++ wrappers that move the cells of the range to a buffer and back (quadratic_time_sort.hpp 70-614, 675-1219). *)
From Coq Require Import String.
From Verif Require Import Base CppModel.
Open Scope string_scope.
Open Scope Z_scope.

(** ** llvmlite objects *)
(** ir.IntType(1), ir.IntType(32), ir.IntType(64), the element type of a dtype, a pointer to it *)
Inductive ty := I1 | I32 | I64 | Elt | PtrElt.
(** the operands of instructions: ir.Constant, function arguments, results of instructions *)
Inductive operand := Const (t : ty) (z : Z) | Arr | N | Reg (id : nat) (t : ty).
(** a Python local variable of the builder functions: a type object or an operand *)
Inductive pyv := PTy (t : ty) | PVal (o : operand).

Inductive instr :=
| Phi (id : nat)
| Sub (id : nat) (a b : operand)
| Add (id : nat) (a b : operand)
| Sext (id : nat) (a : operand)
| Gep (id : nat) (base idx : operand)
| Load (id : nat) (p : operand)
| Store (v p : operand)
| Cmp (id : nat) (op : string) (a b : operand)
| Br (l : string)
| CBr (c : operand) (l1 l2 : string)
| RetVoid.

(** IRBuilder state: fresh ids, current block, instructions per block (in order), incoming edges per phi (in order) *)
Record bst := { fresh : nat; cur : string; blocks : list (string * list instr); incomings : list (nat * (operand * string)) }.
Definition prog := (list (string * list instr) * list (nat * (operand * string)))%type.

Definition M (X : Type) := bst -> res (X * bst).
Definition mret {X} (x : X) : M X := fun s => Ret (x, s).
Definition mbind {X Y} (m : M X) (k : X -> M Y) : M Y := fun s => ' (x, s') <- m s ;; k x s'.
Notation "x <~ m ;; k" := (mbind m (fun x => k)) (at level 61, m at next level, right associativity).
Notation "m ~;; k" := (mbind m (fun _ => k)) (at level 61, right associativity).

Definition add_to {X} (l : string) (x : X) (bs : list (string * list X)) : list (string * list X) :=
  map (fun '(l', is) => if String.eqb l l' then (l', (is ++ [x])%list) else (l', is)) bs.
(** fn.append_basic_block(name) *)
Definition append_block (l : string) : M string := fun s =>
  Ret (l, {| fresh := fresh s; cur := cur s; blocks := (blocks s ++ [(l, [])])%list; incomings := incomings s |}).
(** b.position_at_end(block) *)
Definition position (l : string) : M unit := fun s =>
  Ret (tt, {| fresh := fresh s; cur := l; blocks := blocks s; incomings := incomings s |}).
(** append an instruction to the current block *)
Definition emit (i : instr) : M unit := fun s =>
  Ret (tt, {| fresh := fresh s; cur := cur s; blocks := add_to (cur s) i (blocks s); incomings := incomings s |}).
(** append an instruction whose result has type [t] *)
Definition emit_val (i : nat -> instr) (t : ty) : M pyv := fun s =>
  Ret (PVal (Reg (fresh s) t), {| fresh := S (fresh s); cur := cur s; blocks := add_to (cur s) (i (fresh s)) (blocks s); incomings := incomings s |}).
Definition fail {X} (e : exn) : M X := fun _ => Raise e.

(** an argument that must be an operand (types have no [.type]: AttributeError), resp. a type (llvmlite's
    [assert isinstance(type, types.Type)] in NamedValue) *)
Definition the_val {X} (v : pyv) (k : operand -> M X) : M X := match v with PVal o => k o | PTy _ => fail AttributeError end.
Definition the_ty {X} (v : pyv) (k : ty -> M X) : M X := match v with PTy t => k t | PVal _ => fail AssertionError end.

Definition b_phi (t : pyv) : M pyv := the_ty t (fun t => emit_val Phi t).
Definition b_sub (a b : pyv) : M pyv := the_val a (fun a => the_val b (fun b => emit_val (fun id => Sub id a b) I32)).
Definition b_add (a b : pyv) : M pyv := the_val a (fun a => the_val b (fun b => emit_val (fun id => Add id a b) I32)).
Definition b_sext (a t : pyv) : M pyv := the_val a (fun a => the_ty t (fun t => emit_val (fun id => Sext id a) t)).
Definition b_gep (a i : pyv) : M pyv := the_val a (fun a => the_val i (fun i => emit_val (fun id => Gep id a i) PtrElt)).
Definition b_load (p : pyv) : M pyv := the_val p (fun p => emit_val (fun id => Load id p) Elt).
Definition b_store (v p : pyv) : M unit := the_val v (fun v => the_val p (fun p => emit (Store v p))).
(** icmp_signed, and fcmp_ordered for the float dtypes: the comparison of the element type *)
Definition b_cmp (op : string) (a b : pyv) : M pyv := the_val a (fun a => the_val b (fun b => emit_val (fun id => Cmp id op a b) I1)).
Definition b_branch (l : string) : M unit := emit (Br l).
Definition b_cbranch (c : pyv) (l1 l2 : string) : M unit := the_val c (fun c => emit (CBr c l1 l2)).
(** phi.add_incoming(value, block) *)
Definition add_incoming (phi v : pyv) (l : string) : M unit :=
  the_val phi (fun p => the_val v (fun v => fun s =>
    match p with
    | Reg id _ => Ret (tt, {| fresh := fresh s; cur := cur s; blocks := blocks s; incomings := (incomings s ++ [(id, (v, l))])%list |})
    | _ => Raise AttributeError
    end)).
(** with b.if_then(cond): body *)
Definition b_if_then {X} (c : pyv) (body : M X) : M X := fun s =>
  (bbif <~ append_block (cur s ++ ".if") ;; bbend <~ append_block (cur s ++ ".endif") ;;
   b_cbranch c bbif bbend ~;; position bbif ~;; r <~ body ;; b_branch bbend ~;; position bbend ~;; mret r) s.

Definition const (t : pyv) (z : Z) : pyv := match t with PTy t => PVal (Const t z) | PVal _ => PVal (Const I32 z) end.
Definition arr := PVal Arr.
Definition n := PVal N.

(** _build_bubble_sort_ir (llvm_algorithms.py 44-131); both branches of line 105 emit a [>] on elements *)
Definition build_bubble_body : M unit :=
  let i32 := PTy I32 in let i64 := PTy I64 in
  b_entry <~ append_block "entry" ;;
  b_outer <~ append_block "outer" ;;
  b_inner_init <~ append_block "inner.init" ;;
  b_inner <~ append_block "inner" ;;
  b_body <~ append_block "body" ;;
  b_swap <~ append_block "swap" ;;
  b_inner_latch <~ append_block "inner.latch" ;;
  b_outer_latch <~ append_block "outer.latch" ;;
  b_exit <~ append_block "exit" ;;
  position b_entry ~;;
  cond_trivial <~ b_cmp "<=" n (const i32 1) ;;
  b_cbranch cond_trivial b_exit b_outer ~;;
  position b_outer ~;;
  i_phi <~ b_phi i32 ;;
  add_incoming i_phi (const i32 0) b_entry ~;;
  n1 <~ b_sub n (const i32 1) ;;
  cond_outer <~ b_cmp "<" i_phi n1 ;;
  b_cbranch cond_outer b_inner_init b_exit ~;;
  position b_inner_init ~;;
  inner_limit <~ b_sub n1 i_phi ;;
  b_branch b_inner ~;;
  position b_inner ~;;
  j_phi <~ b_phi i32 ;;
  add_incoming j_phi (const i32 0) b_inner_init ~;;
  cond_inner <~ b_cmp "<" j_phi inner_limit ;;
  b_cbranch cond_inner b_body b_outer_latch ~;;
  position b_body ~;;
  j64 <~ b_sext j_phi i64 ;;
  jp1 <~ b_add j_phi (const i32 1) ;;
  jp1_64 <~ b_sext jp1 i64 ;;
  ptr_j <~ b_gep arr j64 ;;
  ptr_jp1 <~ b_gep arr jp1_64 ;;
  val_j <~ b_load ptr_j ;;
  val_jp1 <~ b_load ptr_jp1 ;;
  should_swap <~ b_cmp ">" val_j val_jp1 ;;
  b_cbranch should_swap b_swap b_inner_latch ~;;
  position b_swap ~;;
  b_store val_jp1 ptr_j ~;;
  b_store val_j ptr_jp1 ~;;
  b_branch b_inner_latch ~;;
  position b_inner_latch ~;;
  j_next <~ b_add j_phi (const i32 1) ;;
  add_incoming j_phi j_next b_inner_latch ~;;
  b_branch b_inner ~;;
  position b_outer_latch ~;;
  i_next <~ b_add i_phi (const i32 1) ;;
  add_incoming i_phi i_next b_outer_latch ~;;
  b_branch b_outer ~;;
  position b_exit ~;;
  emit RetVoid.

(** _build_selection_sort_ir (llvm_algorithms.py 184-268). [min_idx] is rebound inside the [with] (line 244) and [i64] is
    rebound from a type to an instruction (line 253). *)
Definition build_selection_body : M unit :=
  let i32 := PTy I32 in let i64 := PTy I64 in
  b_entry <~ append_block "entry" ;;
  b_outer <~ append_block "outer" ;;
  b_inner <~ append_block "inner" ;;
  b_inner_latch <~ append_block "inner.latch" ;;
  b_swap <~ append_block "swap" ;;
  b_exit <~ append_block "exit" ;;
  position b_entry ~;;
  cond_trivial <~ b_cmp "<=" n (const i32 1) ;;
  b_cbranch cond_trivial b_exit b_outer ~;;
  position b_outer ~;;
  i_phi <~ b_phi i32 ;;
  add_incoming i_phi (const i32 0) b_entry ~;;
  cond_outer <~ b_cmp "<" i_phi n ;;
  b_cbranch cond_outer b_inner b_exit ~;;
  position b_inner ~;;
  min_idx <~ b_phi i32 ;;
  add_incoming min_idx i_phi b_outer ~;;
  j_phi <~ b_phi i32 ;;
  ip1 <~ b_add i_phi (const i32 1) ;;
  add_incoming j_phi ip1 b_outer ~;;
  cond_inner <~ b_cmp "<" j_phi n ;;
  b_cbranch cond_inner b_inner_latch b_swap ~;;
  position b_inner_latch ~;;
  j64 <~ b_sext j_phi i64 ;;
  min64 <~ b_sext min_idx i64 ;;
  arr_j_ptr <~ b_gep arr j64 ;;
  arr_min_ptr <~ b_gep arr min64 ;;
  arr_j_val <~ b_load arr_j_ptr ;;
  arr_min_val <~ b_load arr_min_ptr ;;
  cmp <~ b_cmp "<" arr_j_val arr_min_val ;;
  min_idx <~ b_if_then cmp (mret j_phi) ;;
  j_next <~ b_add j_phi (const i32 1) ;;
  add_incoming j_phi j_next b_inner_latch ~;;
  add_incoming min_idx min_idx b_inner_latch ~;;
  b_branch b_inner ~;;
  position b_swap ~;;
  i64 <~ b_sext i_phi i64 ;;
  min64 <~ b_sext min_idx i64 ;;
  ptr_i <~ b_gep arr i64 ;;
  ptr_min <~ b_gep arr min64 ;;
  val_i <~ b_load ptr_i ;;
  val_min <~ b_load ptr_min ;;
  b_store val_min ptr_i ~;;
  b_store val_i ptr_min ~;;
  i_next <~ b_add i_phi (const i32 1) ;;
  add_incoming i_phi i_next b_swap ~;;
  b_branch b_outer ~;;
  position b_exit ~;;
  emit RetVoid.

Definition empty_bst : bst := {| fresh := 0; cur := ""; blocks := []; incomings := [] |}.
Definition build (b : M unit) : res prog := ' (_, s) <- b empty_bst ;; Ret (blocks s, incomings s).

(** ** Function pointers and their cache (llvm_algorithms.py 37-42, 133-168, 170-177, 271-295). A function address is the
    function's IR. The cache is keyed by dtype alone and shared by the two sorts. *)
Inductive dtype := Int32 | Int64 | Float32 | Float64 | OtherDtype.
Definition dtype_eqb (a b : dtype) : bool :=
  match a, b with Int32, Int32 | Int64, Int64 | Float32, Float32 | Float64, Float64 | OtherDtype, OtherDtype => true | _, _ => false end.
Definition cache := list (dtype * prog).
Fixpoint cache_find (c : cache) (d : dtype) : option prog :=
  match c with [] => None | (d', p) :: c' => if dtype_eqb d d' then Some p else cache_find c' d end.
Inductive sort_name := BubbleSort | SelectionSort.
Definition builder_of (s : sort_name) : M unit := match s with BubbleSort => build_bubble_body | SelectionSort => build_selection_body end.
(** get_bubble_sort_ptr / get_selection_sort_ptr: every exception while building becomes RuntimeError *)
Definition get_ptr (s : sort_name) (c : cache) (d : dtype) : res prog * cache :=
  match d with
  | OtherDtype => (Raise ValueError, c)
  | _ => match cache_find c d with
         | Some p => (Ret p, c)
         | None => match build (builder_of s) with
                   | Ret p => (Ret p, (d, p) :: c)
                   | _ => (Raise RuntimeError, c)
                   end
         end
  end.

(** ** Running the IR. An [i32] value is kept as its signed representative, so [sext] is the identity; [add]/[sub] wrap.
    A pointer is an index into the buffer; a load or store outside the buffer is undefined behaviour ([Raise IndexError]).
    Elements are compared by [lt] ([icmp slt/sgt]; for floats [fcmp olt/ogt], the buffer holding no NaN). *)
Section Run.
  Context {V : Type} (lt : V -> V -> bool).
  Inductive val := VInt (z : Z) | VBool (b : bool) | VPtr (i : Z) | VElt (v : V).
  Definition env := nat -> option val.
  Definition set_env (e : env) (k : nat) (v : val) : env := fun k' => if Nat.eqb k' k then Some v else e k'.

  Definition eval (len32 : Z) (e : env) (o : operand) : res val :=
    match o with
    | Const _ z => Ret (VInt z)
    | Arr => Ret (VPtr 0)
    | N => Ret (VInt len32)
    | Reg id _ => match e id with Some v => Ret v | None => Raise RuntimeError end
    end.
  Definition cmp_int (op : string) (a b : Z) : res bool :=
    if String.eqb op "<=" then Ret (a <=? b) else if String.eqb op "<" then Ret (a <? b)
    else if String.eqb op ">" then Ret (b <? a) else Raise RuntimeError.
  Definition cmp_elt (op : string) (a b : V) : res bool :=
    if String.eqb op "<" then Ret (lt a b) else if String.eqb op ">" then Ret (lt b a) else Raise RuntimeError.

  (** one instruction that is neither a phi nor a terminator *)
  Definition exec (len32 : Z) (i : instr) (e : env) (m : list V) : res (env * list V) :=
    match i with
    | Sub id a b => x <- eval len32 e a ;; y <- eval len32 e b ;;
        match x, y with VInt x, VInt y => Ret (set_env e id (VInt (s32 (x - y))), m) | _, _ => Raise RuntimeError end
    | Add id a b => x <- eval len32 e a ;; y <- eval len32 e b ;;
        match x, y with VInt x, VInt y => Ret (set_env e id (VInt (s32 (x + y))), m) | _, _ => Raise RuntimeError end
    | Sext id a => x <- eval len32 e a ;; match x with VInt x => Ret (set_env e id (VInt x), m) | _ => Raise RuntimeError end
    | Gep id p i => x <- eval len32 e p ;; y <- eval len32 e i ;;
        match x, y with VPtr x, VInt y => Ret (set_env e id (VPtr (x + y)), m) | _, _ => Raise RuntimeError end
    | Load id p => x <- eval len32 e p ;;
        match x with VPtr k => v <- cget m k ;; Ret (set_env e id (VElt v), m) | _ => Raise RuntimeError end
    | Store v p => x <- eval len32 e v ;; y <- eval len32 e p ;;
        match x, y with VElt v, VPtr k => m' <- cset m k v ;; Ret (e, m') | _, _ => Raise RuntimeError end
    | Cmp id op a b => x <- eval len32 e a ;; y <- eval len32 e b ;;
        match x, y with
        | VInt x, VInt y => r <- cmp_int op x y ;; Ret (set_env e id (VBool r), m)
        | VElt x, VElt y => r <- cmp_elt op x y ;; Ret (set_env e id (VBool r), m)
        | _, _ => Raise RuntimeError
        end
    | _ => Raise RuntimeError
    end.

  (** the value a phi takes on the edge from [from] *)
  Fixpoint phi_value (inc : list (nat * (operand * string))) (id : nat) (from : string) : option operand :=
    match inc with
    | [] => None
    | (id', (o, l)) :: inc' => if Nat.eqb id' id && String.eqb l from then Some o else phi_value inc' id from
    end.
  (** the phis at the head of a block read the environment of the edge *)
  Fixpoint exec_phis (len32 : Z) (inc : list (nat * (operand * string))) (from : string) (old : env) (is : list instr) (e : env) : res (env * list instr) :=
    match is with
    | Phi id :: is' =>
      match phi_value inc id from with
      | Some o => v <- eval len32 old o ;; exec_phis len32 inc from old is' (set_env e id v)
      | None => Raise RuntimeError
      end
    | _ => Ret (e, is)
    end.
  (** the rest of the block up to its terminator: [Some l] jumps to [l], [None] returns *)
  Fixpoint exec_body (len32 : Z) (is : list instr) (e : env) (m : list V) : res (option string * env * list V) :=
    match is with
    | [] => Raise RuntimeError
    | Br l :: _ => Ret (Some l, e, m)
    | CBr c l1 l2 :: _ => b <- eval len32 e c ;; match b with VBool b => Ret (Some (if b then l1 else l2), e, m) | _ => Raise RuntimeError end
    | RetVoid :: _ => Ret (None, e, m)
    | i :: is' => ' (e', m') <- exec len32 i e m ;; exec_body len32 is' e' m'
    end.
  Fixpoint find_block (bs : list (string * list instr)) (l : string) : option (list instr) :=
    match bs with [] => None | (l', is) :: bs' => if String.eqb l l' then Some is else find_block bs' l end.
  Definition exec_block (p : prog) (len32 : Z) (from l : string) (e : env) (m : list V) : res (option string * env * list V) :=
    match find_block (fst p) l with
    | None => Raise RuntimeError
    | Some is => ' (e', is') <- exec_phis len32 (snd p) from e is e ;; exec_body len32 is' e' m
    end.
  (** call the function on a buffer; [fuel] bounds the number of blocks executed *)
  Definition run (fuel : nat) (p : prog) (len32 : Z) (m : list V) : res (list V) :=
    while_loop fuel (fun '(from, l, e, m) =>
      ' (next, e', m') <- exec_block p len32 from l e m ;;
      match next with Some l' => Ret (Next (l, l', e', m')) | None => Ret (Break m') end)
      ("", "entry", (fun _ => None), m).
End Run.

(** ** The wrappers bubble_sort_llvm and selection_sort_llvm (quadratic_time_sort.hpp 70-614 and 675-1219, the same text but for
    the name of the pointer function) on an array without spare cells, called with the dtype left out or one that matches
    the array's elements. [infer] is infer_dtype (141-146); [fits] says whether an element can be converted to the buffer's
    element type (PyLong_AsLongLong, PyLong_AsLong and the int32 check raise OverflowError otherwise). Simplification: a
    conversion that succeeds is taken to be exact, so the rounding of floats by dtype float32 and of ints by a float
    dtype is not modelled: [fits] must be false there, although the code does not raise. *)
Section Wrap.
  Context {V : Type} (lt : V -> V -> bool) (infer : V -> dtype) (fits : dtype -> V -> bool).

  (** lines 152-193: the values of the cells lower .. lower + N - 1 that are not None *)
  Definition gather (a : list (option V)) (lower cnt : Z) : res (list V) :=
    forM (zrange 0 cnt) (fun i vals => x <- cget a (lower + i) ;; Ret (match x with Some v => vals ++ [v] | None => vals end)%list) [].
  (** lines 340-372: the sorted values first, then None *)
  Definition write_back (a : list (option V)) (lower cnt : Z) (buf : list V) : res (list (option V)) :=
    a <- forM (zrange 0 (len buf)) (fun i a => v <- cget buf i ;; cset a (lower + i) (Some v)) a ;;
    forM (zrange (len buf) cnt) (fun i a => cset a (lower + i) None) a.

  (** PyLong_AsSsize_t, then the cast to size_t (lines 119-129) *)
  Definition as_ssize (z : Z) : res Z := if (z <? - 2 ^ 63) || (2 ^ 63 <=? z) then Raise OverflowError else Ret (u64 z).
  Definition wrap_lower (start : option Z) : res Z := match start with None => Ret 0 | Some z => as_ssize z end.
  Definition wrap_upper (size : Z) (end_ : option Z) : res Z := match end_ with None => Ret (size - 1) | Some z => as_ssize z end.

  (** lines 292-304 and 376-388: get the function, convert to the buffer, call it, write back. The function is called on
      (int32_t)buf.size() elements. *)
  Definition call_sort (fuel : nat) (s : sort_name) (c : cache) (d : dtype) (a : list (option V)) (lower cnt : Z) (vals : list V) : res (list (option V)) * cache :=
    match d with
    | OtherDtype => (Raise ValueError, c)
    | _ => let '(p, c) := get_ptr s c d in
           (p <- p ;; if forallb (fits d) vals then buf <- run lt fuel p (s32 (len vals)) vals ;; write_back a lower cnt buf
                      else Raise OverflowError, c)
    end.
  Definition llvm_sort (fuel : nat) (s : sort_name) (c : cache) (a : list (option V)) (start end_ : option Z) (custom_comp : bool) (d : option dtype)
    : res (list (option V)) * cache :=
    let arr_len := len a in
    if arr_len =? 0 then (Ret a, c)
    else
      match (lower <- wrap_lower start ;; upper <- wrap_upper arr_len end_ ;; Ret (lower, upper)) with
      | Ret (lower, upper) =>
        if (upper <? lower) || (arr_len <=? lower) then (Ret a, c)
        else
          let upper := if arr_len <=? upper then arr_len - 1 else upper in
          if custom_comp then (Raise NotImplementedError, c)
          else
            let cnt := upper - lower + 1 in
            match gather a lower cnt with
            | Ret vals =>
              match vals with
              | [] => (Ret a, c)
              | v :: _ =>
                let dt := match d with Some d => d | None => infer v end in
                if 2 ^ 31 - 1 <? cnt then (Raise OverflowError, c)
                else call_sort fuel s c dt a lower cnt vals
              end
            | Raise e => (Raise e, c)
            | OutOfFuel => (OutOfFuel, c)
            end
      | Raise e => (Raise e, c)
      | OutOfFuel => (OutOfFuel, c)
      end.
End Wrap.

(** int arrays: Python ints are unbounded, the buffers are not *)
Definition int_fits (d : dtype) (z : Z) : bool :=
  match d with Int32 => (- 2 ^ 31 <=? z) && (z <? 2 ^ 31) | Int64 => (- 2 ^ 63 <=? z) && (z <? 2 ^ 63) | _ => false end.
Definition llvm_int_sort := llvm_sort Z.ltb (fun _ => Int64) int_fits.
