(** Specification for the C++ search trees: binary trees of key objects, what it means that the nodes of the backend hold one, and histories of calls.
    Nothing here mentions the Python model. *)
From Verif Require Import Base CppTreeModel TreeHist2Spec.

Inductive ktree (K D : Type) := KE | KN (l : ktree K D) (k : K) (d : option D) (r : ktree K D).
Arguments KE {K D}. Arguments KN {K D}.
Section CppTreeSpec.
  Context {K D : Type}.
  Notation ktree := (ktree K D).
  (** entries in order *)
  Fixpoint kents (T : ktree) : list (K * option D) := match T with KE => [] | KN l k d r => kents l ++ (k, d) :: kents r end.
  Fixpoint kpre (T : ktree) : list K := match T with KE => [] | KN l k _ r => k :: kpre l ++ kpre r end.
  Fixpoint kpost (T : ktree) : list K := match T with KE => [] | KN l k _ r => kpost l ++ kpost r ++ [k] end.
  Fixpoint kzip (a b : list (list K)) : list (list K) := match a, b with [], _ => b | _, [] => a | x :: a', y :: b' => (x ++ y) :: kzip a' b' end.
  (** the levels, each from left to right *)
  Fixpoint klevels (T : ktree) : list (list K) := match T with KE => [] | KN l k _ r => [k] :: kzip (klevels l) (klevels r) end.
  Fixpoint kin (k : K) (T : ktree) : Prop := match T with KE => False | KN l x _ r => k = x \/ kin k l \/ kin k r end.
  (** the node with key [z] has both [j] and [k] in its subtree and no child of it does *)
  Fixpoint klca (T : ktree) (j k z : K) : Prop :=
    match T with
    | KE => False
    | KN l x _ r => (z = x /\ kin j T /\ kin k T /\ ~ (kin j l /\ kin k l) /\ ~ (kin j r /\ kin k r)) \/ klca l j k z \/ klca r j k z
    end.
  Definition kroot (T : ktree) : option K := match T with KE => None | KN _ k _ _ => Some k end.
  (** the empty tree has height -1 *)
  Fixpoint kheight (T : ktree) : Z := match T with KE => -1 | KN l _ _ r => Z.max (kheight l) (kheight r) + 1 end.
  Fixpoint kbalanced (T : ktree) : Prop := match T with KE => True | KN l _ _ r => -1 <= kheight r - kheight l <= 1 /\ kbalanced l /\ kbalanced r end.
  (** node [i], whose parent is [p], is the root of [T]: keys, data and all links *)
  Fixpoint held (t : cmem K D) (i p : option Z) (T : ktree) : Prop :=
    match T with
    | KE => i = None
    | KN l k d r => exists n, cget t i = Ret n /\ cn_key n = Some k /\ ck_data (cn_inf n) = d /\ cn_parent n = p /\ held t (cn_left n) i l /\ held t (cn_right n) i r
    end.

  Variable same : K -> K -> bool.
  Variable val : K -> Z.
  (** the comparator: 1 for less, else 0, where [rk] numbers the key objects in the order meant *)
  Definition order_of (rk : K -> Z) (comp : K -> K -> Z) : Prop := forall x y, comp x y = if rk x <? rk y then 1 else 0.
  (** histories *)
  Inductive cop := CIns (k : K) (d : option D) | CDel (k : K).
  Fixpoint cperform (ins : ctree K D -> K -> option D -> res (ctree K D)) (del : ctree K D -> K -> res (ctree K D * bool)) (b : ctree K D) (ops : list cop) : res (ctree K D * list bool) :=
    match ops with
    | [] => Ret (b, [])
    | CIns k d :: ops' => b <- ins b k d ;; cperform ins del b ops'
    | CDel k :: ops' => ' (b, f) <- del b k ;; ' (b, fs) <- cperform ins del b ops' ;; Ret (b, f :: fs)
    end.
  (** BinarySearchTree(k0, d0, comp, is_order_statistic=os, backend=Backend.CPP), then the calls *)
  Definition cpp_bst_history (comp : K -> K -> Z) (os : bool) (k0 : K) (d0 : option D) (ops : list cop) : res (ctree K D * list bool) :=
    b <- cpp_bst_new (Some k0) d0 comp os ;; cperform (c_insert same val) (c_delete same val) b ops.
  (** AVLTree *)
  Definition cpp_avl_history (comp : K -> K -> Z) (os : bool) (k0 : K) (d0 : option D) (ops : list cop) : res (ctree K D * list bool) :=
    b <- cpp_bst_new (Some k0) d0 comp os ;; cperform (c_avl_insert same val) (c_avl_delete same val) b ops.
  (** the history on sorted lists (TreeHist2Spec.v), with keys named by [rk] *)
  Definition named (rk : K -> Z) (o : cop) : bop D := match o with CIns k d => BIns (rk k) d | CDel k => BDel (rk k) end.
  Definition named_entries (rk : K -> Z) (l : list (K * option D)) : list (Z * option D) := map (fun e => (rk (fst e), snd e)) l.
  (** search finds exactly the entries of [l] *)
  Definition cfinds (b : ctree K D) (l : list (K * option D)) : Prop :=
    (forall k d, In (k, d) l -> exists i n, c_search same b k = Ret (Some i) /\ cget (ct_mem b) (Some i) = Ret n /\ cn_key n = Some k /\ ck_data (cn_inf n) = d) /\
    (forall k, ~ In k (map fst l) -> c_search same b k = Ret None).
  Definition cshows (v : list (cinfo K D)) (l : list (K * option D)) : Prop := map (fun x => (ck_key x, ck_data x)) v = map (fun e => (Some (fst e), snd e)) l.
  (** the first of [keys] in the order of [rk] that has P; None if there is none *)
  Definition cleast (rk : K -> Z) (P : K -> Prop) (keys : list K) (r : option K) : Prop :=
    match r with
    | None => forall k, In k keys -> ~ P k
    | Some z => In z keys /\ P z /\ forall k, In k keys -> P k -> rk z <= rk k
    end.
End CppTreeSpec.
Arguments cop : clear implicits.
