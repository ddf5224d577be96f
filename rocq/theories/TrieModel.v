(** Model of Trie (pydatastructs/strings/trie.py) and TrieNode (utils/misc_util.py 545-582).
    A node is [TN is_terminal children]; [children] is the dict, in insertion order, from the child's char to the child, so a node's char is
    the key it is stored under (None for the root). Nodes are created by insert, linked to one parent only and never shared, so the
    tree of references is an inductive value; an update through the references in [path] rebuilds the nodes on the path. *)
From Verif Require Import Base DsfModel.

Section Trie.
  Context {A : Type} (eqb : A -> A -> bool).
  Inductive trie := TN (is_terminal : bool) (children : list (A * trie)).
  Definition t_term (t : trie) : bool := let 'TN b _ := t in b.
  Definition t_children (t : trie) : list (A * trie) := let 'TN _ ch := t in ch.
  (** get_child (misc_util.py 578-579) *)
  Definition get_child (t : trie) (c : A) : option trie := dget eqb (t_children t) c.
  (** remove_child (misc_util.py 581-582) *)
  Definition remove_child (ch : list (A * trie)) (c : A) : list (A * trie) := filter (fun x => negb (eqb (fst x) c)) ch.

  (** Trie.__new__ (trie.py 54-59) *)
  Definition trie_new : trie := TN false [].
  (** insert (61-83) *)
  Fixpoint trie_insert (t : trie) (string : list A) : trie :=
    match string with
    | [] => TN true (t_children t)
    | char :: rest =>
      match get_child t char with
      | None => TN (t_term t) (dset eqb (t_children t) char (trie_insert (TN false []) rest))
      | Some walk => TN (t_term t) (dset eqb (t_children t) char (trie_insert walk rest))
      end
    end.
  (** is_present (85-105) *)
  Fixpoint is_present (t : trie) (string : list A) : bool :=
    match string with
    | [] => true
    | char :: rest => match get_child t char with None => false | Some walk => is_present walk rest end
    end.
  (** is_inserted (107-127) *)
  Fixpoint is_inserted (t : trie) (string : list A) : bool :=
    match string with
    | [] => t_term t
    | char :: rest => match get_child t char with None => false | Some walk => is_inserted walk rest end
    end.
  (** delete (129-161): the result of deleting below a node, None when some child is missing (150-151); the flag says that the loop of
      156-160 has climbed to this node ([i] is its index in path) and has not returned. The guard [i >= 1] is that the loop is at a child. *)
  Fixpoint delete_rec (t : trie) (string : list A) : option (trie * bool) :=
    match string with
    | [] => Some (TN false (t_children t), true)
    | char :: rest =>
      match get_child t char with
      | None => None
      | Some walk =>
        match delete_rec walk rest with
        | None => None
        | Some (walk', running) =>
          if running && match t_children walk' with [] => true | _ => false end then
            Some (TN (t_term t) (remove_child (dset eqb (t_children t) char walk') char), negb (t_term t))
          else Some (TN (t_term t) (dset eqb (t_children t) char walk'), false)
        end
      end
    end.
  (** delete returns True (Some true) or None; the trie after the call *)
  Definition trie_delete (t : trie) (string : list A) : trie * option bool :=
    match delete_rec t string with None => (t, None) | Some (t', _) => (t', Some true) end.

  (** number of nodes *)
  Fixpoint t_size (t : trie) : nat := let 'TN _ ch := t in S (fold_right (fun x n => (t_size (snd x) + n)%nat) O ch).
  (** _collect (179-187); a stack entry is (node's char, node, curr_prefix), the top first; children are pushed in dict order *)
  Definition collect (prefix : list A) (char : A) (node : trie) (strings : list (list A)) : res (list (list A)) :=
    while_loop (S (t_size node)) (fun '(stack, strings) =>
      match stack with
      | [] => Ret (Break strings)
      | (c, walk, curr_prefix) :: stack =>
        let strings := if t_term walk then strings ++ [curr_prefix ++ [c]] else strings in
        Ret (Next (rev (map (fun x => (fst x, snd x, curr_prefix ++ [c])) (t_children walk)) ++ stack, strings))
      end) ([(char, node, prefix)], strings).
  (** strings_with_prefix (163-201). An entry of the result is a string, or None (the root's char, line 198) *)
  Fixpoint walk_to (t : trie) (string : list A) : option trie :=
    match string with [] => Some t | char :: rest => match get_child t char with None => None | Some walk => walk_to walk rest end end.
  Definition strings_with_prefix (t : trie) (string : list A) : res (list (option (list A))) :=
    match walk_to t string with
    | None => Ret []
    | Some walk =>
      let first := if t_term walk then [match rev string with [] => None | char :: _ => Some [char] end] else [] in
      rest <- forM (t_children walk) (fun x strings => collect string (fst x) (snd x) strings) [] ;;
      Ret (first ++ map Some rest)
    end.

  (** a history of calls *)
  Inductive trie_op := TInsert (s : list A) | TDelete (s : list A).
  Definition trie_run (ops : list trie_op) (t : trie) : trie :=
    fold_left (fun t o => match o with TInsert s => trie_insert t s | TDelete s => fst (trie_delete t s) end) ops t.
End Trie.
Arguments trie : clear implicits.
Arguments trie_op : clear implicits.
