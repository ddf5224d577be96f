(** Properties C43-C45 (DisjointSetForest). Keys are compared by a boolean equality deciding equality (dict keys). *)
From Coq Require Import Relations.
From Verif Require Import Base DsfModel DsfSpec DsfProofs DsfProofs2.

(** C43. After any history the calls all succeeded or were refused with KeyError; then find_root of an unknown key raises KeyError, of a
    known key it terminates and returns a known key in the same class, two known keys have the same root iff the unions connect them, and
    disjoint_sets lists every known key exactly once, grouped by class. *)
Theorem C43_partition : forall (K : Type) (eqb : K -> K -> bool) (ES : forall x y, reflect (x = y) (eqb x y)) ops ks us,
  dsf_hist ops ks us -> exists t, dsf_run eqb ops [] = Ret t /\ map fst t = ks /\
    (forall k, ~ In k ks -> find_root eqb t k = Raise KeyError /\ find_size eqb t k = Raise KeyError /\ make_root eqb t k = Raise KeyError) /\
    (forall a b, ~ (In a ks /\ In b ks) -> dsf_union eqb t a b = Raise KeyError) /\
    (forall k, In k ks -> exists r, find_root eqb t k = Ret (r, t) /\ In r ks /\ connected us k r) /\
    (forall x y rx ry, In x ks -> In y ks -> find_root eqb t x = Ret (rx, t) -> find_root eqb t y = Ret (ry, t) -> (rx = ry <-> connected us x y)) /\
    (exists gs, disjoint_sets eqb t = Ret gs /\ Permutation (concat gs) ks /\
       forall g, In g gs -> g <> [] /\ forall x y, In x g -> (In y g <-> In y ks /\ connected us x y)).
Proof.
  intros K eqb ES ops ks us H. destruct (hist_good eqb ES ops ks us H) as (t & P & E & G & _).
  pose proof (g_inv _ _ _ _ _ G) as I. pose proof (g_keys _ _ _ _ _ G) as Ek. exists t. split; [exact E|]. split; [exact Ek|]. split; [|split; [|split; [|split]]].
  - intros k Hk. rewrite <- Ek in Hk. pose proof (find_root_err eqb ES t k Hk) as F. split; [exact F|]. split; [unfold find_size; rewrite F; reflexivity|].
    apply (make_root_err eqb ES); exact Hk.
  - intros a b Hab. apply (union_err eqb ES t a b P I). rewrite Ek. exact Hab.
  - intros k Hk. exists (rt P k). assert (Hk' := Hk). rewrite <- Ek in Hk'. destruct (rt_root eqb ES t P k I Hk') as (Ep & _ & Dr).
    split; [apply (find_root_ok' eqb ES); assumption|]. rewrite Ek in Dr. split; [exact Dr|]. apply (g_conn _ _ _ _ _ G); auto.
    unfold rt at 2. rewrite (rt_self eqb t P (rt P k) I); [reflexivity|rewrite Ek; exact Dr|exact Ep].
  - intros x y rx ry Hx Hy E1 E2. rewrite <- (g_conn _ _ _ _ _ G x y Hx Hy). rewrite <- Ek in Hx, Hy.
    rewrite (find_root_ok' eqb ES t P x I Hx) in E1. rewrite (find_root_ok' eqb ES t P y I Hy) in E2. injection E1 as <-. injection E2 as <-. reflexivity.
  - pose proof (groups_ok eqb ES ks us t P G) as W. apply wp_ex in W. exact W.
Qed.
Print Assumptions C43_partition.
Definition dops : list (dsf_op Z) := [DMake 1; DMake 2; DMake 3; DUnion 1 2; DUnion 3 9; DRoot 2; DMake 1].
Lemma dops_hist : dsf_hist dops [1; 2; 3] [(1, 2)].
Proof.
  change dops with ((((((([] ++ [DMake 1]) ++ [DMake 2]) ++ [DMake 3]) ++ [DUnion 1 2]) ++ [DUnion 3 9]) ++ [DRoot 2]) ++ [DMake 1]).
  apply dh_make_again; [|simpl; auto]. apply dh_root. apply dh_union_no; [|simpl; lia]. apply dh_union; [|simpl; auto|simpl; auto].
  apply (dh_make _ [1; 2] []); [|simpl; lia]. apply (dh_make _ [1] []); [|simpl; lia]. apply (dh_make _ [] []); [constructor|simpl; lia].
Qed.
Example C43_case : exists t, dsf_hist dops [1; 2; 3] [(1, 2)] /\ dsf_run Z.eqb dops [] = Ret t /\ find_root Z.eqb t 1 = Ret (2, t) /\
  find_root Z.eqb t 9 = Raise KeyError /\ disjoint_sets Z.eqb t = Ret [[1; 2]; [3]].
Proof. eexists. split; [apply dops_hist|]. repeat split; vm_compute; reflexivity. Qed.

(** C44. After any history, find_size is the number of keys connected to the given one; make_root makes the key its own root and leaves
    which keys share a root, and every size, unchanged. *)
Theorem C44_sizes : forall (K : Type) (eqb : K -> K -> bool) (ES : forall x y, reflect (x = y) (eqb x y)) ops ks us,
  dsf_hist ops ks us -> exists t, dsf_run eqb ops [] = Ret t /\
    (forall k, In k ks -> exists n, find_size eqb t k = Ret (n, t) /\ counts ks (connected us k) n) /\
    (forall k, In k ks -> exists t', make_root eqb t k = Ret t' /\ map fst t' = ks /\ find_root eqb t' k = Ret (k, t') /\
       (forall x, In x ks -> exists n, find_size eqb t' x = Ret (n, t') /\ counts ks (connected us x) n) /\
       (forall x y rx ry, In x ks -> In y ks -> find_root eqb t' x = Ret (rx, t') -> find_root eqb t' y = Ret (ry, t') -> (rx = ry <-> connected us x y))).
Proof.
  intros K eqb ES ops ks us H. destruct (hist_good eqb ES ops ks us H) as (t & P & E & G & _). exists t. split; [exact E|]. split.
  - intros k Hk. eexists. apply (size_counts eqb ES ks us t P k G Hk).
  - intros k Hk. destruct (step_root eqb ES ks us t P k G Hk) as (t' & P' & Er & G' & R). pose proof (g_keys _ _ _ _ _ G') as Ek. pose proof (g_inv _ _ _ _ _ G') as I.
    exists t'. split; [exact Er|]. split; [exact Ek|]. split; [|split].
    + rewrite (find_root_ok' eqb ES t' P' k I) by (rewrite Ek; exact Hk). rewrite R. reflexivity.
    + intros x Hx. eexists. apply (size_counts eqb ES ks us t' P' x G' Hx).
    + intros x y rx ry Hx Hy E1 E2. rewrite <- (g_conn _ _ _ _ _ G' x y Hx Hy). rewrite <- Ek in Hx, Hy.
      rewrite (find_root_ok' eqb ES t' P' x I Hx) in E1. rewrite (find_root_ok' eqb ES t' P' y I Hy) in E2. injection E1 as <-. injection E2 as <-. reflexivity.
Qed.
Print Assumptions C44_sizes.
Example C44_case : exists t, dsf_hist dops [1; 2; 3] [(1, 2)] /\ dsf_run Z.eqb dops [] = Ret t /\ find_size Z.eqb t 1 = Ret (2, t) /\ find_size Z.eqb t 3 = Ret (1, t).
Proof. eexists. split; [apply dops_hist|]. repeat split; vm_compute; reflexivity. Qed.

(** C45. Without make_root the loop of find_root follows at most log2(size of the set) parent links: [n+1] rounds of the loop follow
    [n] links, and log2(size)+1 rounds are enough for it to finish. *)
Theorem C45_logarithmic_find : forall (K : Type) (eqb : K -> K -> bool) (ES : forall x y, reflect (x = y) (eqb x y)) ops ks us,
  dsf_hist ops ks us -> Forall no_make_root ops -> exists t, dsf_run eqb ops [] = Ret t /\
    forall k, In k ks -> exists n r, find_size eqb t k = Ret (n, t) /\ counts ks (connected us k) n /\
      find_root_fuel eqb (S (Z.to_nat (Z.log2 n))) t k = Ret (r, t).
Proof.
  intros K eqb ES ops ks us H F. destruct (hist_good eqb ES ops ks us H) as (t & P & E & G & S). exists t. split; [exact E|]. intros k Hk.
  exists (cnt eqb P ks (rt P k)), (rt P k). destruct (size_counts eqb ES ks us t P k G Hk) as [A B]. split; [exact A|]. split; [exact B|].
  apply (find_root_ok eqb ES); [apply (g_inv _ _ _ _ _ G)|rewrite (g_keys _ _ _ _ _ G); exact Hk|].
  specialize (S F k Hk). destruct (P k) as [|x l] eqn:EP; [simpl; lia|]. replace (len (x :: l) - 1) with (len l) in S by (unfold len; cbn [length]; lia).
  apply Z.log2_le_mono in S. rewrite Z.log2_pow2 in S by apply Zle_0_nat. unfold len in S. cbn [length]. lia.
Qed.
Print Assumptions C45_logarithmic_find.
Definition dops2 : list (dsf_op Z) := [DMake 1; DMake 2; DMake 3; DMake 4; DUnion 1 2; DUnion 3 4; DUnion 2 4].
Lemma dops2_hist : dsf_hist dops2 [1; 2; 3; 4] [(2, 4); (3, 4); (1, 2)].
Proof.
  change dops2 with ((((((([] ++ [DMake 1]) ++ [DMake 2]) ++ [DMake 3]) ++ [DMake 4]) ++ [DUnion 1 2]) ++ [DUnion 3 4]) ++ [DUnion 2 4]).
  do 3 (apply dh_union; [|simpl; auto|simpl; auto 6]). apply (dh_make _ [1; 2; 3] []); [|simpl; lia].
  apply (dh_make _ [1; 2] []); [|simpl; lia]. apply (dh_make _ [1] []); [|simpl; lia]. apply (dh_make _ [] []); [constructor|simpl; lia].
Qed.
Example C45_case : exists t, dsf_hist dops2 [1; 2; 3; 4] [(2, 4); (3, 4); (1, 2)] /\ Forall no_make_root dops2 /\ dsf_run Z.eqb dops2 [] = Ret t /\
  find_size Z.eqb t 4 = Ret (4, t) /\ find_root_fuel Z.eqb 3 t 4 = Ret (1, t) /\ find_root_fuel Z.eqb 2 t 4 = OutOfFuel.
Proof. eexists. split; [apply dops2_hist|]. split; [repeat constructor|]. repeat split; vm_compute; reflexivity. Qed.
