(** Dict lemmas for string keys, and other list facts used by the graph proofs. *)
From Coq Require Import Strings.String Strings.Ascii.
From Verif Require Import Base DsfModel GraphModel GraphSpec.
Import List.

Lemma SE x y : reflect (x = y) (String.eqb x y).
Proof. apply String.eqb_spec. Qed.
Lemma SD (x y : string) : {x = y} + {x <> y}.
Proof. apply string_dec. Qed.
Lemma seqb_sym x y : String.eqb x y = String.eqb y x.
Proof. destruct (SE x y), (SE y x); congruence. Qed.
Lemma mem_spec x l : reflect (In x l) (mem x l).
Proof.
  unfold mem. destruct (existsb (String.eqb x) l) eqn:E; constructor.
  - apply existsb_exists in E as (y & Hy & E). destruct (SE x y) as [->|]; [exact Hy|discriminate].
  - intros H. assert (X : existsb (String.eqb x) l = true); [|congruence]. apply existsb_exists. exists x. split; [exact H|apply String.eqb_refl].
Qed.
Lemma mem_true x l : mem x l = true <-> In x l.
Proof. destruct (mem_spec x l); split; intros; auto; try easy. Qed.
Lemma mem_false x l : mem x l = false <-> ~ In x l.
Proof. destruct (mem_spec x l); split; intros; auto; try easy. Qed.

Section D.
  Context {V : Type}.
  Implicit Type t : list (string * V).
  Lemma sget_set t k v k' : sdget (sdset t k v) k' = if String.eqb k' k then Some v else sdget t k'.
  Proof.
    induction t as [|[a w] t IH]; simpl.
    - destruct (SE k' k); reflexivity.
    - destruct (SE k a) as [->|Hk]; simpl.
      + destruct (SE k' a); reflexivity.
      + rewrite IH. destruct (SE k' a), (SE k' k); congruence.
  Qed.
  Lemma sget_set_eq t k v : sdget (sdset t k v) k = Some v.
  Proof. rewrite sget_set, String.eqb_refl. reflexivity. Qed.
  Lemma sget_set_ne t k v k' : k' <> k -> sdget (sdset t k v) k' = sdget t k'.
  Proof. intros H. rewrite sget_set. destruct (SE k' k); congruence. Qed.
  Lemma sget_none t k : sdget t k = None <-> ~ In k (map fst t).
  Proof. induction t as [|[a w] t IH]; simpl; [tauto|]. destruct (SE k a) as [->|Hk]; [split; [discriminate|tauto]|]. rewrite IH. firstorder congruence. Qed.
  Lemma sget_some t k : In k (map fst t) -> exists v, sdget t k = Some v.
  Proof. intros H. destruct (sdget t k) as [v|] eqn:E; [eauto|]. apply sget_none in E. contradiction. Qed.
  Lemma sget_In t k v : sdget t k = Some v -> In (k, v) t.
  Proof. induction t as [|[a w] t IH]; simpl; [discriminate|]. destruct (SE k a) as [->|]; [intros [= ->]; left; reflexivity|right; auto]. Qed.
  Lemma sget_key t k v : sdget t k = Some v -> In k (map fst t).
  Proof. intros H. apply sget_In in H. apply (in_map fst) in H. exact H. Qed.
  Lemma In_sget t k v : NoDup (map fst t) -> In (k, v) t -> sdget t k = Some v.
  Proof.
    induction t as [|[a w] t IH]; simpl; intros HN HI; [destruct HI|]. inversion HN; subst. destruct HI as [[= -> ->]|HI].
    - rewrite String.eqb_refl. reflexivity.
    - destruct (SE k a) as [->|]; [|auto]. exfalso. apply H1. apply (in_map fst) in HI. exact HI.
  Qed.
  Lemma sset_keys t k v : map fst (sdset t k v) = if mem k (map fst t) then map fst t else map fst t ++ [k].
  Proof.
    induction t as [|[a w] t IH]; simpl; [reflexivity|]. destruct (SE k a) as [->|]; simpl.
    - reflexivity.
    - rewrite IH. fold (mem k (map fst t)). destruct (mem k (map fst t)); reflexivity.
  Qed.
  Lemma sset_new t k v : ~ In k (map fst t) -> sdset t k v = t ++ [(k, v)].
  Proof. induction t as [|[a w] t IH]; intros H; [reflexivity|]. simpl in *. destruct (SE k a) as [->|Hk]; [tauto|]. rewrite IH by tauto. reflexivity. Qed.
  Lemma sset_nodup t k v : NoDup (map fst t) -> NoDup (map fst (sdset t k v)).
  Proof.
    intros H. rewrite sset_keys. destruct (mem_spec k (map fst t)); [exact H|].
    apply (Permutation_NoDup (l := k :: map fst t)); [apply Permutation_cons_append|constructor; assumption].
  Qed.
  Lemma sset_In t k v k' v' : NoDup (map fst t) -> (In (k', v') (sdset t k v) <-> (k' = k /\ v' = v) \/ (k' <> k /\ In (k', v') t)).
  Proof.
    intros HN. split.
    - intros H. apply In_sget in H; [|apply sset_nodup; exact HN]. rewrite sget_set in H. destruct (SE k' k) as [->|].
      + left. split; [reflexivity|congruence].
      + right. split; [assumption|]. apply sget_In. exact H.
    - intros [[-> ->]|[Hn H]]; apply sget_In.
      + apply sget_set_eq.
      + rewrite sget_set_ne by exact Hn. apply In_sget; assumption.
  Qed.
  Lemma sget_pop t k k' : sdget (dpop t k) k' = if String.eqb k' k then None else sdget t k'.
  Proof.
    induction t as [|[a w] t IH]; simpl.
    - destruct (SE k' k); reflexivity.
    - destruct (SE k a) as [->|Hk]; simpl.
      + rewrite IH. destruct (SE k' a); reflexivity.
      + rewrite IH. destruct (SE k' a), (SE k' k); congruence.
  Qed.
  Lemma pop_keys t k : map fst (dpop t k) = filter (fun x => negb (String.eqb k x)) (map fst t).
  Proof. induction t as [|[a w] t IH]; simpl; [reflexivity|]. destruct (negb (String.eqb k a)); simpl; rewrite IH; reflexivity. Qed.
  Lemma pop_nodup t k : NoDup (map fst t) -> NoDup (map fst (dpop t k)).
  Proof. intros H. rewrite pop_keys. apply NoDup_filter. exact H. Qed.
  Lemma pop_In t k k' v' : In (k', v') (dpop t k) <-> k' <> k /\ In (k', v') t.
  Proof. unfold dpop. rewrite filter_In. simpl. destruct (SE k k') as [->|H]; simpl; split; intros (A & B); split; auto; try easy; congruence. Qed.
End D.

Lemma py_remove_ok l x : NoDup l -> In x l -> py_remove l x = Ret (filter (fun y => negb (String.eqb x y)) l).
Proof.
  induction l as [|y l IH]; intros HN HI; [destruct HI|]. cbn [py_remove filter]. inversion HN; subst. destruct (SE x y) as [->|Hx]; cbn [negb].
  - f_equal. clear - H1. induction l as [|z l IH]; [reflexivity|]. cbn [filter]. destruct (SE y z) as [->|]; [exfalso; apply H1; left; reflexivity|].
    cbn [negb]. f_equal. apply IH. intros H. apply H1. right. exact H.
  - destruct HI as [->|HI]; [congruence|]. rewrite IH by assumption. reflexivity.
Qed.

(** keys of edges are unambiguous for names without underscore, and for __q__ *)
Lemma ekey_inj_clean u v u' v' : no_underscore u = true -> no_underscore u' = true -> ekey u v = ekey u' v' -> u = u' /\ v = v'.
Proof.
  unfold ekey. revert u'. induction u as [|c u IH]; intros [|c' u'] Hu Hu' E; simpl in *.
  - split; congruence.
  - injection E as E1 E2. subst c'. simpl in Hu'. discriminate.
  - injection E as E1 E2. subst c. simpl in Hu. discriminate.
  - injection E as E1 E2. subst c'. apply andb_true_iff in Hu as [_ Hu]. apply andb_true_iff in Hu' as [_ Hu'].
    destruct (IH u' Hu Hu' E2) as [-> ->]. split; reflexivity.
Qed.
Lemma no_us_cases s : no_us s = true -> (no_underscore s = true /\ s <> EmptyString) \/ s = "__q__"%string.
Proof. unfold no_us. destruct (String.eqb_spec s "__q__") as [->|_]; [auto|]. rewrite orb_false_r. intros H. apply andb_true_iff in H as [H1 H2]. left. split; [exact H1|]. destruct (String.eqb_spec s EmptyString); [discriminate|assumption]. Qed.
Lemma ekey_q u v v' : no_underscore u = true -> u <> EmptyString -> ekey u v <> ekey "__q__" v'.
Proof. destruct u as [|c u]; [congruence|]. intros H _ E. injection E as -> _. discriminate H. Qed.
Lemma ekey_inj u v u' v' : no_us u = true -> no_us u' = true -> ekey u v = ekey u' v' -> u = u' /\ v = v'.
Proof.
  intros Hu Hu' E. destruct (no_us_cases u Hu) as [[A B]| ->], (no_us_cases u' Hu') as [[A' B']| ->].
  - apply ekey_inj_clean; assumption.
  - exfalso. apply (ekey_q u v v' A B E).
  - exfalso. symmetry in E. apply (ekey_q u' v' v A' B' E).
  - unfold ekey in E. simpl in E. split; [reflexivity|]. congruence.
Qed.
Lemma ordinary_no_us s : ordinary s -> no_us s = true.
Proof. intros H. apply H. Qed.
