(** Specification of maps built by histories of inserts and deletes, and of ordered queries on them. Nothing here mentions the array. *)
From Coq Require Import Sorting.Sorted.
From Verif Require Import Base TreeModel.

Section TreeSpec.
  Context {D : Type}.
  (** the data of the last insert of [k] *)
  Fixpoint last_data (h : list (Z * option D)) (k : Z) : option (option D) :=
    match h with
    | [] => None
    | (k', d) :: h' => match last_data h' k with Some e => Some e | None => if k =? k' then Some d else None end
    end.
  (** [l]: the entries that the history leaves, by ascending key *)
  Definition sorted_map (l : list (Z * option D)) (h : list (Z * option D)) : Prop :=
    StronglySorted Z.lt (map fst l) /\ forall k d, In (k, d) l <-> last_data h k = Some d.
  (** the infos of visited nodes carry exactly the entries [l] *)
  Definition shows (v : list (info D)) (l : list (Z * option D)) : Prop :=
    map (fun x => (k_key x, k_data x)) v = map (fun e => (Some (fst e), snd e)) l.
  (** least element of [keys] with [P]; None if there is none *)
  Definition least (P : Z -> Prop) (keys : list Z) (r : option Z) : Prop :=
    match r with
    | None => forall k, In k keys -> ~ P k
    | Some z => In z keys /\ P z /\ forall k, In k keys -> P k -> z <= k
    end.

  (** programs: the tree made by BinarySearchTree(key, root_data, is_order_statistic=os) followed by inserts *)
  Fixpoint insert_all (b : bst D) (h : list (Z * option D)) : res (bst D) :=
    match h with [] => Ret b | (k, d) :: h' => b <- insert b k d ;; insert_all b h' end.
  Definition started (start : option (Z * D)) : list (Z * option D) := match start with Some (k, d) => [(k, Some d)] | None => [] end.
  Definition build (start : option (Z * D)) (comp : option (Z -> Z -> bool)) (os : bool) (h : list (Z * option D)) : res (bst D) :=
    b <- bst_new (option_map fst start) (option_map snd start) comp os ;; insert_all b h.
  (** deletes, with what they report *)
  Fixpoint delete_all (b : bst D) (ks : list Z) : res (bst D * list bool) :=
    match ks with
    | [] => Ret (b, [])
    | k :: ks' => ' (b, f) <- delete b k ;; ' (b, fs) <- delete_all b ks' ;; Ret (b, f :: fs)
    end.
  (** what they should report, and leave *)
  Fixpoint deleted (l : list (Z * option D)) (ks : list Z) : list (Z * option D) * list bool :=
    match ks with
    | [] => (l, [])
    | k :: ks' => let '(l', fs) := deleted (filter (fun e => negb (fst e =? k)) l) ks' in (l', existsb (fun e => fst e =? k) l :: fs)
    end.
  (** searching finds the entry of [l] with key k *)
  Definition finds (b : bst D) (l : list (Z * option D)) : Prop :=
    forall k, match find (fun e => fst e =? k) l with
              | Some e => exists i n, search b k = Ret (Some i) /\ tget (b_mem b) (Some i) = Ret n /\ n_key n = Some k /\ k_data (n_inf n) = snd e
              | None => search b k = Ret None
              end.
End TreeSpec.
