(** Specification of a trie: which strings a history of inserts and deletes leaves stored. *)
From Verif Require Import Base TrieModel.
(** s was inserted and not deleted since *)
Definition stored {A} (ops : list (trie_op A)) (s : list A) : Prop :=
  exists pre post, ops = pre ++ TInsert s :: post /\ ~ In (TDelete s) post.
