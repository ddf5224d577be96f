(** Specification: histories on the C++ search trees that mix inserts and deletes. *)
From Verif Require Import Base CppTreeModel TreeHist2Spec TreeMixSpec.

Section CppMixSpec.
  Context {K D E : Type}.
  Inductive call := Ins (e : E) | Del (k : K).
  (** the calls one after the other, with what the deletes return *)
  Fixpoint calls (ins : ctree K D -> E -> res (ctree K D)) (del : ctree K D -> K -> res (ctree K D * bool)) (b : ctree K D) (ops : list call) : res (ctree K D * list bool) :=
    match ops with
    | [] => Ret (b, [])
    | Ins e :: ops' => b <- ins b e ;; calls ins del b ops'
    | Del k :: ops' => ' (b, f) <- del b k ;; ' (b, fs) <- calls ins del b ops' ;; Ret (b, f :: fs)
    end.
  (** the calls on keys named by their rank; ek is the key and the data of an insert *)
  Definition ranked_call (rk : K -> Z) (ek : E -> K * option D) (o : call) : bop D := match o with Ins e => BIns (rk (fst (ek e))) (snd (ek e)) | Del k => BDel (rk k) end.
  (** the C++ AVLTree balances only while all positions are small integers: a key that is there, or one of the first 257 *)
  Definition small_tree (s : mmap D) (k : Z) : bool := is_key (m_ents s) k || (m_used s <? 257).
End CppMixSpec.
Arguments call : clear implicits.
