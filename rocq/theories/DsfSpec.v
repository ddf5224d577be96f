(** Specification of a partition built by unions. *)
From Coq Require Import Relations.
From Verif Require Import Base DsfModel.

Section S.
  Context {K : Type}.
  (** the keys made and the unions performed (calls with an unknown key are refused) *)
  Inductive dsf_hist : list (dsf_op K) -> list K -> list (K * K) -> Prop :=
  | dh_nil : dsf_hist [] [] []
  | dh_make ops ks us k : dsf_hist ops ks us -> ~ In k ks -> dsf_hist (ops ++ [DMake k]) (ks ++ [k]) us
  | dh_make_again ops ks us k : dsf_hist ops ks us -> In k ks -> dsf_hist (ops ++ [DMake k]) ks us
  | dh_union ops ks us a b : dsf_hist ops ks us -> In a ks -> In b ks -> dsf_hist (ops ++ [DUnion a b]) ks ((a, b) :: us)
  | dh_union_no ops ks us a b : dsf_hist ops ks us -> ~ (In a ks /\ In b ks) -> dsf_hist (ops ++ [DUnion a b]) ks us
  | dh_root ops ks us k : dsf_hist ops ks us -> dsf_hist (ops ++ [DRoot k]) ks us
  | dh_find ops ks us k : dsf_hist ops ks us -> dsf_hist (ops ++ [DFind k]) ks us.
  (** connected by the unions: the equivalence generated by them *)
  Definition connected (us : list (K * K)) : K -> K -> Prop := clos_refl_sym_trans K (fun a b => In (a, b) us).
  (** [n] is the number of keys satisfying [P] *)
  Definition counts (ks : list K) (P : K -> Prop) (n : Z) : Prop :=
    exists l, NoDup l /\ (forall y, In y l <-> In y ks /\ P y) /\ n = len l.
  Definition no_make_root (o : dsf_op K) : Prop := match o with DRoot _ => False | _ => True end.
End S.
