(** Specification for the C++ CartesianTree, Treap, SplayTree and RedBlackTree: binary trees of nodes with their priorities and colours, and histories of inserts
    and deletes. Nothing here mentions the Python model. *)
From Verif Require Import Base CppTreeModel.

Inductive itree (K D : Type) := IE | IN (l : itree K D) (x : cinfo K D) (r : itree K D).
Arguments IE {K D}. Arguments IN {K D}.
Section CppTreeSpec2.
  Context {K D : Type}.
  Notation itree := (itree K D).
  (** the nodes in order *)
  Fixpoint inodes (T : itree) : list (cinfo K D) := match T with IE => [] | IN l x r => inodes l ++ x :: inodes r end.
  (** node [i], whose parent is [p], is the root of [T]: fields and all links *)
  Fixpoint iheld (t : cmem K D) (i p : option Z) (T : itree) : Prop :=
    match T with
    | IE => i = None
    | IN l x r => exists n, cget t i = Ret n /\ cn_inf n = x /\ cn_parent n = p /\ iheld t (cn_left n) i l /\ iheld t (cn_right n) i r
    end.
  (** heap order: no child has a smaller priority than its parent *)
  Definition no_smaller (p : Z) (T : itree) : Prop := match T with IE => True | IN _ y _ => exists q, ck_prio y = Some q /\ p <= q end.
  Fixpoint iheap (T : itree) : Prop :=
    match T with
    | IE => True
    | IN l x r => (exists p, ck_prio x = Some p /\ no_smaller p l /\ no_smaller p r) /\ iheap l /\ iheap r
    end.
  (** colour 1 is red, 0 is black *)
  Definition icolor (c : Z) (T : itree) : Prop := match T with IE => c = 0 | IN _ x _ => ck_color x = Some c end.
  (** every node is red or black, no red node has a red child *)
  Fixpoint ino_red_red (T : itree) : Prop :=
    match T with
    | IE => True
    | IN l _ r => (icolor 0 T \/ (icolor 1 T /\ icolor 0 l /\ icolor 0 r)) /\ ino_red_red l /\ ino_red_red r
    end.
  (** every path from the root to an empty subtree has n black nodes *)
  Fixpoint iblacks (T : itree) (n : Z) : Prop :=
    match T with
    | IE => n = 0
    | IN l x r => let m := match ck_color x with Some 0 => n - 1 | _ => n end in iblacks l m /\ iblacks r m
    end.
  Definition iroot (T : itree) : option K := match T with IE => None | IN _ x _ => ck_key x end.
  (** the calls *)
  Fixpoint insert_each {E : Type} (ins : ctree K D -> E -> res (ctree K D)) (b : ctree K D) (h : list E) : res (ctree K D) :=
    match h with [] => Ret b | e :: h' => b <- ins b e ;; insert_each ins b h' end.
  Fixpoint delete_each (del : ctree K D -> K -> res (ctree K D * bool)) (b : ctree K D) (ks : list K) : res (ctree K D * list bool) :=
    match ks with [] => Ret (b, []) | k :: ks' => ' (b, f) <- del b k ;; ' (b, fs) <- delete_each del b ks' ;; Ret (b, f :: fs) end.
  (** Tree(comp=comp, is_order_statistic=os, backend=Backend.CPP), then the inserts, then the deletes *)
  Definition from_empty {E : Type} (ins : ctree K D -> E -> res (ctree K D)) (del : ctree K D -> K -> res (ctree K D * bool)) (comp : K -> K -> Z) (os : bool) (h : list E) (ks : list K) : res (ctree K D * list bool) :=
    b <- cpp_bst_new None None comp os ;; b <- insert_each ins b h ;; delete_each del b ks.
End CppTreeSpec2.
