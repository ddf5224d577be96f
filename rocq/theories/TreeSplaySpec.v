(** Specification of SplayTree histories: deletes that are safe, inserts and splits. About lists of entries sorted by key, not about the array. *)
From Verif Require Import Base TreeModel TreeModel2 TreeModel3.

Section SplaySpec.
  Context {D : Type}.
  Notation entry := (Z * option D)%type.
  (** the deletes that are safe: of an absent key, of a key between two others, of one of two keys *)
  Definition safe (l : list entry) (k : Z) : Prop :=
    ~ In k (map fst l) \/ ((exists a, In a (map fst l) /\ a < k) /\ exists c, In c (map fst l) /\ k < c) \/ len l = 2.
  Fixpoint safe_all (l : list entry) (ks : list Z) : Prop :=
    match ks with [] => True | k :: ks' => safe l k /\ safe_all (filter (fun e => negb (fst e =? k)) l) ks' end.
  (** the two halves *)
  Definition upto (x : Z) (l : list entry) : list entry := filter (fun e => fst e <=? x) l.
  Definition above (x : Z) (l : list entry) : list entry := filter (fun e => x <? fst e) l.
  (** a history: inserts, and splits after which one goes on with the tree that was split or with the tree that was returned *)
  Inductive sop := Ins (k : Z) (d : option D) | Low (x : Z) | High (x : Z).
  Definition run_one (b : bst D) (o : sop) : res (bst D) :=
    match o with
    | Ins k d => splay_insert b k d
    | Low x => ' (b, _) <- splay_split b x ;; Ret b
    | High x => ' (_, r) <- splay_split b x ;; match r with Some b => Ret b | None => Raise TypeError end
    end.
  Fixpoint run_splay (b : bst D) (ops : list sop) : res (bst D) := match ops with [] => Ret b | o :: ops' => b <- run_one b o ;; run_splay b ops' end.
  (** what it should leave *)
  Definition after_one (l : list entry) (o : sop) : list entry :=
    match o with
    | Ins k d => upto k l ++ (k, d) :: above k l
    | Low x => upto x l
    | High x => above x l
    end.
  Fixpoint after (l : list entry) (ops : list sop) : list entry := match ops with [] => l | o :: ops' => after (after_one l o) ops' end.
  (** inserted keys are new, splits are at present keys, and the half one goes on with is not empty *)
  Definition valid_one (l : list entry) (o : sop) : Prop :=
    match o with
    | Ins k _ => ~ In k (map fst l)
    | Low x => In x (map fst l)
    | High x => In x (map fst l) /\ above x l <> []
    end.
  Fixpoint valid (l : list entry) (ops : list sop) : Prop := match ops with [] => True | o :: ops' => valid_one l o /\ valid (after_one l o) ops' end.
End SplaySpec.
Arguments sop D : clear implicits.
