(** Specification for join and split of the C++ SplayTree: histories of inserts and splits, as in TreeSplaySpec.v, on key objects named by [rk]. *)
From Verif Require Import Base TreeModel CppTreeModel CppTreeModel2 CppTreeModel3 CppTreeSpec CppTreeSpec2 TreeSplaySpec.

Section CppTreeSpec3.
  Context {K D : Type} (same : K -> K -> bool) (val : K -> Z) (rk : K -> Z).
  Notation ctree := (ctree K D).
  (** SplayTree(comp=comp, is_order_statistic=os, backend=Backend.CPP), then the inserts *)
  Definition cpp_splay_build (comp : K -> K -> Z) (os : bool) (h : list (K * option D)) : res ctree :=
    b <- cpp_bst_new None None comp os ;; insert_each (fun b e => c_splay_insert same val b (fst e) (snd e)) b h.
  (** inserts, and splits after which one goes on with the tree that was split or with the tree that was returned *)
  Inductive csop := CSIns (k : K) (d : option D) | CSLow (x : K) | CSHigh (x : K).
  Definition crun_one (b : ctree) (o : csop) : res ctree :=
    match o with
    | CSIns k d => c_splay_insert same val b k d
    | CSLow x => ' (b, _) <- c_splay_split same val b x ;; Ret b
    | CSHigh x => ' (_, r) <- c_splay_split same val b x ;; match r with Some b => Ret b | None => Raise TypeError end
    end.
  Fixpoint crun_splay (b : ctree) (ops : list csop) : res ctree := match ops with [] => Ret b | o :: ops' => b <- crun_one b o ;; crun_splay b ops' end.
  Definition snamed (o : csop) : sop D := match o with CSIns k d => Ins (rk k) d | CSLow x => Low (rk x) | CSHigh x => High (rk x) end.
  (** searches, the in-order traversal and the bounds agree with the entries [m] *)
  Definition cholds (b : ctree) (m : list (K * option D)) : Prop :=
    cfinds same b m /\ (exists v, c_in_order (ct_mem b) (ct_root b) = Ret v /\ cshows v m) /\
    forall key, exists lo hi, c_lower_bound same b key = Ret lo /\ c_upper_bound same b key = Ret hi /\ cleast rk (fun k => rk key <= rk k) (map fst m) lo /\ cleast rk (fun k => rk key < rk k) (map fst m) hi.
End CppTreeSpec3.
