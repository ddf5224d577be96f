(** Specification: the search tree (TreeShapeSpec.v) that a tree of key objects is, with the keys named by [rk]. *)
From Verif Require Import Base CppTreeSpec TreeShapeSpec.

Fixpoint named_tree {K D : Type} (rk : K -> Z) (U : ktree K D) : stree D :=
  match U with KE => Leaf | KN l k d r => Node (named_tree rk l) (rk k) d (named_tree rk r) end.
