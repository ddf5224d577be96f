(** Model of the node and edge objects of graphs taken by themselves: the Python AdjacencyListGraphNode and GraphEdge
    (pydatastructs/utils/misc_util.py 366-509) and the C++ GraphNode, AdjacencyMatrixGraphNode, AdjacencyListGraphNode and GraphEdge
    (pydatastructs/utils/_backend/cpp/GraphNode.hpp, AdjacencyMatrixGraphNode.hpp, AdjacencyListGraphNode.hpp, GraphEdge.hpp).
    A str is the list of its code points. A float, and an object of another kind, is known by a number (its bits, its identity). An instance
    of a subclass of int, float or str (True, an IntEnum member, numpy.float64) has an identity besides its value. Undefined behaviour is
    SystemError. Reference counts are not modelled. *)
From Coq Require Import Strings.String Strings.Ascii.
From Verif Require Import Base DsfModel GraphModel.
Import List.

(** a Python str *)
Definition ustr : Type := list Z.
Definition ustr_eqb (a b : ustr) : bool := if list_eq_dec Z.eq_dec a b then true else false.
(** a str literal of the source *)
Fixpoint lit (s : string) : ustr := match s with EmptyString => [] | String c s' => Z.of_nat (nat_of_ascii c) :: lit s' end.

(** the objects given as data or value: None; an int; a float; a str; instances of subclasses of these (the number is the identity); others *)
Inductive pv := PNone | PInt (z : Z) | PFloat (f : Z) | PStr (s : ustr) | PIntSub (o z : Z) | PFloatSub (o f : Z) | PStrSub (o : Z) (s : ustr) | PObj (o : Z).
(** the member [data] (GraphNode.hpp 26-27) or [value] (GraphEdge.hpp 18-19) with its type tag *)
Inductive slot := SNone | SInt (z : Z) | SDouble (f : Z) | SString (s : ustr) | SObj (o : Z).

(** PyUnicode_AsUTF8 gives NULL for a str with a surrogate *)
Definition has_surrogate (s : ustr) : bool := existsb (fun c => (55296 <=? c) && (c <=? 57343)) s.
(** std::string(const char* ) stops at the first NUL *)
Fixpoint c_string (s : ustr) : ustr := match s with [] => [] | c :: s' => if c =? 0 then [] else c :: c_string s' end.
(** PyUnicode_AsUTF8 and std::string: a null pointer is undefined behaviour *)
Definition to_std (s : ustr) : res ustr := if has_surrogate s then Raise SystemError else Ret (c_string s).
(** PyLong_AsLongLong: -1, and an exception is set, outside 64 bits *)
Definition fits64 (z : Z) : bool := (- 2 ^ 63 <=? z) && (z <? 2 ^ 63).
Definition as_longlong (z : Z) : Z := if fits64 z then z else -1.

(** the if-else chain that stores an object (GraphNode.hpp 47-71 and 155-171; AdjacencyListGraphNode.hpp 55-71): the member, and whether an
    exception is left set *)
Definition store (data : pv) : res (slot * bool) :=
  match data with
  | PNone => Ret (SNone, false)
  | PInt z | PIntSub _ z => Ret (SInt (as_longlong z), negb (fits64 z))
  | PFloat f | PFloatSub _ f => Ret (SDouble f, false)
  | PStr s | PStrSub _ s => r <- to_std s ;; Ret (SString r, false)
  | PObj o => Ret (SObj o, false)
  end.
(** the getters (GraphNode.hpp 117-129; AdjacencyListGraphNode.hpp 151-166; GraphEdge.hpp 93-105) *)
Definition load (s : slot) : pv := match s with SNone => PNone | SInt z => PInt z | SDouble f => PFloat f | SString s => PStr s | SObj o => PObj o end.

(** a C++ node: name and data *)
Record cnode := mkcnode { cn_name : ustr; cn_data : slot }.
(** the format "s" refuses a str with a NUL or a surrogate; both constructors turn that into ValueError *)
Definition arg_s (s : ustr) : bool := negb (has_surrogate s) && negb (existsb (Z.eqb 0) s).
(** GraphNode(name, data) (GraphNode.hpp 36-74; AdjacencyMatrixGraphNode.hpp 20-29 calls it; AdjacencyListGraphNode.hpp 34-71 is the same up to
    the adjacency list): a result with an exception set is a SystemError *)
Definition cnode_new (name : ustr) (data : pv) : res cnode :=
  if negb (arg_s name) then Raise ValueError
  else '(d, pending) <- store data ;; if (pending : bool) then Raise SystemError else Ret (mkcnode name d).
(** node.name = value (GraphNode.hpp 144-149; AdjacencyListGraphNode.hpp 143-150) *)
Definition cnode_set_name (n : cnode) (value : pv) : res (cnode * option exn) :=
  match value with
  | PStr s | PStrSub _ s => r <- to_std s ;; Ret (mkcnode r (cn_data n), None)
  | _ => Ret (n, Some TypeError)
  end.
(** node.data = value of a GraphNode (GraphNode.hpp 150-171): the node afterwards, and the exception. The setter reports success when
    PyLong_AsLongLong has left an exception set; the interpreter raises SystemError at some later call, here at once *)
Definition cnode_set_data (n : cnode) (value : pv) : res (cnode * option exn) :=
  '(d, pending) <- store value ;; Ret (mkcnode (cn_name n) d, if (pending : bool) then Some SystemError else None).
(** node.data = value of an AdjacencyListGraphNode (AdjacencyListGraphNode.hpp 168-197) checks for the null pointer. The type tag says String
    only after the check, so the old member is kept (if it was another object, its reference is gone all the same) *)
Definition calnode_set_data (n : cnode) (value : pv) : res (cnode * option exn) :=
  match value with
  | PStr s | PStrSub _ s => if has_surrogate s then Ret (n, Some ValueError) else Ret (mkcnode (cn_name n) (SString (c_string s)), None)
  | _ => cnode_set_data n value
  end.

(** assignments to the two attributes *)
Inductive nop := NSetName (v : pv) | NSetData (v : pv).
(** a history of assignments, each caught if it raises *)
Definition cnode_call (adjlist : bool) (n : cnode) (o : nop) : res (cnode * option exn) :=
  match o with NSetName v => cnode_set_name n v | NSetData v => if adjlist then calnode_set_data n v else cnode_set_data n v end.
Definition cnode_run (adjlist : bool) (name : ustr) (data : pv) (ops : list nop) : res (cnode * list (option exn)) :=
  n <- cnode_new name data ;;
  forM ops (fun o '(n, outs) => '(n', e) <- cnode_call adjlist n o ;; Ret (n', outs ++ [e])) (n, []).

(** GraphEdge(node1, node2, value) (GraphEdge.hpp 29-70) and edge.value = v (GraphEdge.hpp 107-126): no other objects *)
Definition edge_value_new (value : pv) : res slot :=
  match value with
  | PObj _ => Raise TypeError
  | _ => '(d, pending) <- store value ;; if (pending : bool) then Raise SystemError else Ret d
  end.
Definition edge_set_value (old : slot) (value : pv) : res (slot * option exn) :=
  match value with
  | PObj _ => Ret (old, Some TypeError)
  | _ => '(d, pending) <- store value ;; Ret (d, if (pending : bool) then Some SystemError else None)
  end.
(** a history of assignments to edge.value *)
Definition edge_run (value : pv) (ops : list pv) : res (slot * list (option exn)) :=
  d <- edge_value_new value ;;
  forM ops (fun v '(d, outs) => '(d', e) <- edge_set_value d v ;; Ret (d', outs ++ [e])) (d, []).

(** ** neighbours *)
Notation udget := (dget ustr_eqb).
Notation udset := (dset ustr_eqb).
Definition upop {V} (t : list (ustr * V)) (k : ustr) : list (ustr * V) := filter (fun x => negb (ustr_eqb k (fst x))) t.
Definition umem (x : ustr) (l : list ustr) : bool := existsb (ustr_eqb x) l.

(** calls on one node *)
Inductive aop := AAdd (name : ustr) (data : pv) | ARem (name : ustr).

(** *** C++ AdjacencyListGraphNode *)
(** what [adjacent] maps a name to: a node, or whatever object was put there in its place *)
Inductive child := ChNode (n : cnode) | ChData (v : pv).
(** the node: name, data, adjacent (AdjacencyListGraphNode.hpp 13-21) *)
Record cadj := mkcadj { ca_node : cnode; ca_adj : list (ustr * child) }.
(** the argument adjacency_list: a list of nodes and other objects, or another iterable *)
Inductive adjarg := ArgList (l : list child) | ArgOther (l : list child).
(** AdjacencyListGraphNode(name, data, adjacency_list) (AdjacencyListGraphNode.hpp 34-92): anything but a list is ignored *)
Definition cadj_new (name : ustr) (data : pv) (adjacency_list : adjarg) : res cadj :=
  if negb (arg_s name) then Raise ValueError
  else
    '(d, pending) <- store data ;;
    adj <- match adjacency_list with
           | ArgList l => forM l (fun c adj => match c with ChNode n => Ret (udset adj (cn_name n) (ChNode n)) | ChData _ => Raise TypeError end) []
           | ArgOther _ => Ret []
           end ;;
    if (pending : bool) then Raise SystemError else Ret (mkcadj (mkcnode name d) adj).
(** add_adjacent_node (AdjacencyListGraphNode.hpp 94-117): for a name that is adjacent already the object [data] itself is stored *)
Definition cadj_add (n : cadj) (name : ustr) (data : pv) : res (cadj * option exn) :=
  if negb (arg_s name) then Ret (n, Some ValueError)
  else match udget (ca_adj n) name with
  | None =>
    match cnode_new name data with
    | Ret new_node => Ret (mkcadj (ca_node n) (udset (ca_adj n) name (ChNode new_node)), None)
    | Raise e => if match data with PStr s | PStrSub _ s => has_surrogate s | _ => false end then Raise e else Ret (n, Some RuntimeError)
    | OutOfFuel => OutOfFuel
    end
  | Some _ => Ret (mkcadj (ca_node n) (udset (ca_adj n) name (ChData data)), None)
  end.
(** remove_adjacent_node (AdjacencyListGraphNode.hpp 119-135) *)
Definition cadj_remove (n : cadj) (name : ustr) : cadj * option exn :=
  if negb (arg_s name) then (n, Some ValueError)
  else match udget (ca_adj n) name with
  | Some _ => (mkcadj (ca_node n) (upop (ca_adj n) name), None)
  | None => (n, Some ValueError)
  end.
(** node.adjacent = value (AdjacencyListGraphNode.hpp 210-231): None stands for a value that is not a dict; a key that is a str, or another one.
    The old neighbours are dropped before the values are looked at *)
Definition cadj_set (n : cadj) (value : option (list (option ustr * child))) : cadj * option exn :=
  match value with
  | None => (n, Some TypeError)
  | Some d =>
    (fix go (d : list (option ustr * child)) (adj : list (ustr * child)) : cadj * option exn :=
       match d with
       | [] => (mkcadj (ca_node n) adj, None)
       | (Some k, ChNode c) :: d' => go d' (udset adj k (ChNode c))
       | _ => (mkcadj (ca_node n) adj, Some TypeError)
       end) d []
  end.
(** a history of calls, each caught if it raises *)
Definition cadj_run (n : cadj) (ops : list aop) : res (cadj * list (option exn)) :=
  forM ops (fun o '(n, outs) =>
    '(n', e) <- match o with AAdd x d => cadj_add n x d | ARem x => Ret (cadj_remove n x) end ;; Ret (n', outs ++ [e])) (n, []).

(** *** Python AdjacencyListGraphNode *)
(** an entry of the list [adjacent]: a name, or a node object of the argument adjacency_list (known by its name) *)
Inductive entry := EName (s : ustr) | ENode (s : ustr).
(** the attributes created for neighbours with the data of the node there, and the list [adjacent]. The list is the argument adjacency_list
    itself if one was given: the caller's list changes with it *)
Record pyadj := mkpyadj { pa_attrs : list (ustr * pv); pa_adjacent : list entry }.
(** AdjacencyListGraphNode.__new__ (misc_util.py 401-413) with the nodes (name and data) of adjacency_list *)
Definition pyadj_new (adjacency_list : list (ustr * pv)) : pyadj :=
  mkpyadj (fold_left (fun a x => udset a (fst x) (snd x)) adjacency_list []) (map (fun x => ENode (fst x)) adjacency_list).
(** the attributes every node has (GraphModel.node_reserved), as strs *)
Definition ureserved : list ustr := map lit node_reserved.
(** hasattr *)
Definition pyadj_hasattr (n : pyadj) (x : ustr) : bool := match udget (pa_attrs n) x with Some _ => true | None => umem x ureserved end.
(** add_adjacent_node (misc_util.py 418-428); setting .data of a reserved attribute raises AttributeError *)
Definition pyadj_add (n : pyadj) (name : ustr) (data : pv) : pyadj * option exn :=
  if pyadj_hasattr n name then
    match udget (pa_attrs n) name with
    | Some _ => (mkpyadj (udset (pa_attrs n) name data) (pa_adjacent n), None)
    | None => (n, Some AttributeError)
    end
  else (mkpyadj (udset (pa_attrs n) name data) (pa_adjacent n ++ [EName name]), None).
(** list.remove(name): a node object is not equal to a str *)
Fixpoint entry_remove (l : list entry) (name : ustr) : option (list entry) :=
  match l with
  | [] => None
  | EName s :: l' => if ustr_eqb name s then Some l' else option_map (cons (EName s)) (entry_remove l' name)
  | ENode s :: l' => option_map (cons (ENode s)) (entry_remove l' name)
  end.
(** remove_adjacent_node (misc_util.py 430-438) *)
Definition pyadj_remove (n : pyadj) (name : ustr) : pyadj * option exn :=
  if negb (pyadj_hasattr n name) then (n, Some ValueError)
  else match entry_remove (pa_adjacent n) name with
  | None => (n, Some ValueError)
  | Some adj => match udget (pa_attrs n) name with
                | Some _ => (mkpyadj (upop (pa_attrs n) name) adj, None)
                | None => (mkpyadj (pa_attrs n) adj, Some AttributeError)
                end
  end.
(** a history of calls, each caught if it raises *)
Definition pyadj_run (n : pyadj) (ops : list aop) : pyadj * list (option exn) :=
  fold_left (fun '(n, outs) o =>
    let '(n', e) := match o with AAdd x d => pyadj_add n x d | ARem x => pyadj_remove n x end in (n', outs ++ [e])) ops (n, []).

(** ** str of nodes and edges *)
(** str(z), std::to_string(int64_t): the decimal digits *)
Fixpoint digits (fuel : nat) (n : Z) : ustr := match fuel with O => [] | S f => if n <? 10 then [48 + n] else digits f (n / 10) ++ [48 + n mod 10] end.
Definition decimal (z : Z) : ustr := if z <? 0 then 45 :: digits (S (Z.to_nat (Z.log2 (- z)))) (- z) else digits (S (Z.to_nat (Z.log2 z))) z.
(** repr of a str of printable ASCII characters: single quotes, or double quotes if there is a single quote and no double one; a backslash and a
    quote like the outer ones get a backslash *)
Definition py_repr (s : ustr) : ustr :=
  let q := if existsb (Z.eqb 39) s && negb (existsb (Z.eqb 34) s) then 34 else 39 in
  q :: flat_map (fun c => if (c =? 92) || (c =? q) then [92; c] else [c]) s ++ [q].
Section Str.
  (** repr of a float, std::to_string(double), and repr of other objects *)
  Context (repr_float to_string_double : Z -> ustr) (repr_obj : Z -> ustr).
  (** repr of an object (an instance of a subclass: repr_obj of its identity) *)
  Definition repr (v : pv) : ustr :=
    match v with PNone => lit "None" | PInt z => decimal z | PFloat f => repr_float f | PStr s => py_repr s
    | PIntSub o _ | PFloatSub o _ | PStrSub o _ | PObj o => repr_obj o end.
  (** GraphNode.__str__ (misc_util.py 371-372): str of a pair *)
  Definition py_node_str (name : ustr) (data : pv) : ustr := (lit "(" ++ py_repr name ++ lit ", " ++ repr data ++ lit ")")%list.
  (** GraphNode_str (GraphNode.hpp 77-107) *)
  Definition cnode_str (n : cnode) : ustr :=
    (lit "('" ++ cn_name n ++ lit "', " ++
     match cn_data n with SNone => lit "None" | SInt z => decimal z | SDouble f => to_string_double f | SString s => lit "'" ++ s ++ lit "'" | SObj o => repr_obj o end ++
     lit ")")%list.
  (** GraphEdge.__str__ (misc_util.py 508-509) *)
  Definition py_edge_str (source target : ustr) : ustr := (lit "(" ++ py_repr source ++ lit ", " ++ py_repr target ++ lit ")")%list.
  (** GraphEdge_str (GraphEdge.hpp 72-91) *)
  Definition cedge_str (source target : ustr) (value : slot) : ustr :=
    (lit "('" ++ source ++ lit "', '" ++ target ++ lit "', " ++
     match value with SInt z => decimal z | SDouble f => to_string_double f | SString s => s | _ => lit "None" end ++ lit ")")%list.
End Str.
