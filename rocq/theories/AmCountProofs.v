(** AdjacencyMatrix.num_edges: what it counts. *)
From Coq Require Import String.
From Verif Require Import Base GraphModel GraphDict GraphProofs.
Open Scope list_scope.

(** the pairs named by a call of the history that reached the matrix *)
Definition hit (names : list string) (o : gop) (u v : string) : Prop :=
  match o with
  | GAddE a b _ => a = u /\ b = v /\ In u names /\ In v names
  | GRemE a b => a = u /\ b = v /\ In u names
  | _ => False
  end.
Record cok (names : list string) (m : list (string * list (string * bool))) (T : string -> string -> Prop) : Prop :=
  { ck : NoDup (map fst m); cn : forall x, In x (map fst m) <-> In x names; cr : forall x r, sdget m x = Some r -> NoDup (map fst r);
    ct : forall u v, (exists r, sdget m u = Some r /\ In v (map fst r)) <-> T u v }.
Lemma cok_set names m T u row v b : cok names m T -> sdget m u = Some row ->
  cok names (sdset m u (sdset row v b)) (fun x y => T x y \/ (x = u /\ y = v)).
Proof.
  intros [K N R C] E. assert (Ku : In u (map fst m)) by (eapply sget_key; exact E).
  assert (KS : map fst (sdset m u (sdset row v b)) = map fst m) by (rewrite sset_keys; destruct (mem_spec u (map fst m)); [reflexivity|contradiction]). split.
  - rewrite KS. exact K.
  - intros x. rewrite KS. apply N.
  - intros x r. rewrite sget_set. destruct (String.eqb_spec x u); [intros [= <-]; apply sset_nodup, (R u), E|apply R].
  - intros x y. rewrite <- C. rewrite sget_set. destruct (String.eqb_spec x u) as [->|Hx].
    + assert (I : In y (map fst (sdset row v b)) <-> In y (map fst row) \/ y = v).
      { rewrite sset_keys. destruct (mem_spec v (map fst row)) as [M|M]; [split; [auto|intros [H|H]; subst; assumption]|]. rewrite in_app_iff. cbn. intuition. }
      split.
      * intros (r & [= <-] & Hy). apply I in Hy as [Hy|Hy]; [left; eauto|right; auto].
      * intros [(r & Er & Hy)|[_ ->]]; eexists; (split; [reflexivity|]); apply I; [left; congruence|right; reflexivity].
    + split; [auto|]. intros [H|[H _]]; [exact H|contradiction].
Qed.
Lemma cok_ext names m T T' : cok names m T -> (forall u v, T u v <-> T' u v) -> cok names m T'.
Proof. intros [K N R C] H. split; auto. intros u v. rewrite C. apply H. Qed.
Lemma cok_step names g o T : cok names (am_matrix g) T -> exists g', settle g (am_call g o) = Ret g' /\ cok names (am_matrix g') (fun u v => T u v \/ hit names o u v).
Proof.
  intros C. assert (D : forall x, (exists r, sdget (am_matrix g) x = Some r /\ In x names) \/ (sdget (am_matrix g) x = None /\ ~ In x names)).
  { intros x. destruct (sdget (am_matrix g) x) as [r|] eqn:E; [left; exists r; split; [reflexivity|]; apply (cn _ _ _ C); eapply sget_key; exact E|right; split; [reflexivity|]; rewrite <- (cn _ _ _ C); apply sget_none, E]. }
  destruct o as [n|n|u v c|u v]; cbn [am_call hit].
  - eexists. split; [reflexivity|]. apply (cok_ext _ _ _ _ C). intuition.
  - eexists. split; [reflexivity|]. apply (cok_ext _ _ _ _ C). intuition.
  - unfold am_add_edge. destruct (D u) as [(ru & Eu & Hu)|(Eu & Hu)]; rewrite Eu; cbn [settle]; [|eexists; split; [reflexivity|]; apply (cok_ext _ _ _ _ C); intros; split; [auto|]; intros [H|(-> & -> & H & _)]; [exact H|contradiction]].
    destruct (D v) as [(rv & Ev & Hv)|(Ev & Hv)]; rewrite Ev; cbn [settle]; [|eexists; split; [reflexivity|]; apply (cok_ext _ _ _ _ C); intros; split; [auto|]; intros [H|(-> & -> & _ & H)]; [exact H|contradiction]].
    destruct c as [c|]; cbn [settle]; (eexists; split; [reflexivity|]); cbn [am_matrix]; (eapply cok_ext; [apply (cok_set _ _ _ _ _ v true C Eu)|]); intros x y; (split; [intros [H|[-> ->]]; [auto|right; repeat split; assumption]|intros [H|(-> & -> & _)]; auto]).
  - unfold am_remove_edge. destruct (D u) as [(ru & Eu & Hu)|(Eu & Hu)]; rewrite Eu; cbn [settle]; [|eexists; split; [reflexivity|]; apply (cok_ext _ _ _ _ C); intros; split; [auto|]; intros [H|(-> & -> & H)]; [exact H|contradiction]].
    eexists; split; [reflexivity|]; cbn [am_matrix]. eapply cok_ext; [apply (cok_set _ _ _ _ _ v false C Eu)|]. intros x y. split; [intros [H|[-> ->]]; [auto|right; repeat split; assumption]|intros [H|(-> & -> & _)]; auto].
Qed.
Lemma cok_run names ops : forall g T, cok names (am_matrix g) T ->
  exists g', forM ops (fun o g => settle g (am_call g o)) g = Ret g' /\ cok names (am_matrix g') (fun u v => T u v \/ exists o, In o ops /\ hit names o u v).
Proof.
  induction ops as [|o ops IH]; intros g T C.
  - exists g. split; [reflexivity|]. apply (cok_ext _ _ _ _ C). intros u v. split; [auto|]. intros [H|(o & [] & _)]; exact H.
  - cbn [forM]. destruct (cok_step names g o T C) as (g1 & -> & C1). cbn [bind]. destruct (IH g1 _ C1) as (g2 & E & C2). exists g2. split; [exact E|]. apply (cok_ext _ _ _ _ C2).
    intros u v. split.
    + intros [[H|H]|(o' & Ho & H)]; [auto|right; exists o; split; [left; reflexivity|exact H]|right; exists o'; split; [right; exact Ho|exact H]].
    + intros [H|(o' & [<-|Ho] & H)]; [auto|auto|right; eauto].
Qed.
Definition pairs (m : list (string * list (string * bool))) : list (string * string) := flat_map (fun xr => map (fun vb => (fst xr, fst vb)) (snd xr)) m.
Lemma pairs_In m u v : NoDup (map fst m) -> In (u, v) (pairs m) <-> exists r, sdget m u = Some r /\ In v (map fst r).
Proof.
  intros N. unfold pairs. rewrite in_flat_map. split.
  - intros ([x r] & Hx & H). cbn [fst snd] in H. apply in_map_iff in H as ([y b] & [= -> ->] & Hy). exists r. split; [apply In_sget; assumption|]. apply (in_map fst) in Hy. exact Hy.
  - intros (r & E & Hv). exists (u, r). split; [apply sget_In; exact E|]. cbn [fst snd]. apply in_map_iff in Hv as ([y b] & Ey & Hy). cbn in Ey. subst y. apply in_map_iff. exists (v, b). auto.
Qed.
Lemma pairs_nodup m : NoDup (map fst m) -> (forall x r, In (x, r) m -> NoDup (map fst r)) -> NoDup (pairs m).
Proof.
  induction m as [|[x r] m IH]; intros N R; [constructor|]. cbn [pairs flat_map fst snd]. fold (pairs m). inversion N as [|? ? Hx N']; subst.
  assert (NA : forall (X : Type) (l1 l2 : list X), NoDup l1 -> NoDup l2 -> (forall a, In a l1 -> In a l2 -> False) -> NoDup (l1 ++ l2)).
  { clear. induction l1 as [|a l1 IH]; intros l2 H1 H2 H3; [exact H2|]. inversion H1; subst. cbn [app]. constructor; [|apply IH; auto; intros b Hb Hc; apply (H3 b); [right; exact Hb|exact Hc]].
    rewrite in_app_iff. intros [H|H]; [contradiction|]. apply (H3 a); [left; reflexivity|exact H]. }
  apply NA.
  - specialize (R x r (or_introl eq_refl)). clear -R. induction r as [|[y b] r IH]; cbn in *; [constructor|]. inversion R; subst. constructor; [|auto]. intros H. apply in_map_iff in H as ([z c] & [= ->] & Hz). apply H1. apply (in_map fst) in Hz. exact Hz.
  - apply IH; [exact N'|]. intros y s Hy. apply (R y s). right. exact Hy.
  - intros [a b] H1 H2. apply in_map_iff in H1 as ([y c] & [= -> ->] & _). apply (pairs_In m a b N') in H2 as (s & E & _). apply Hx. cbn [fst]. eapply sget_key. exact E.
Qed.
Lemma num_pairs g : am_num_edges g = len (pairs (am_matrix g)).
Proof.
  unfold am_num_edges. assert (A : forall m acc, fold_left (fun acc (r : string * list (string * bool)) => acc + len (snd r)) m acc = acc + len (pairs m)); [|rewrite A; lia].
  induction m as [|[x r] m IH]; intros acc; [cbn; lia|]. cbn [fold_left snd]. rewrite IH. cbn [pairs flat_map snd fst]. unfold len. rewrite app_length, map_length. fold (pairs m). lia.
Qed.
Lemma count_ok names ops : exists g, am_run names ops = Ret g /\ exists l, NoDup l /\ am_num_edges g = len l /\ forall u v, In (u, v) l <-> exists o, In o ops /\ hit names o u v.
Proof.
  assert (C0 : cok names (am_matrix (am_new names)) (fun _ _ => False)).
  { cbn [am_new am_matrix]. split.
    - apply fold_new_nodup. constructor.
    - intros x. rewrite <- (amr_n _ _ (am_new_rep names) x). split; [apply sget_some|intros [r Hr]; eapply sget_key; exact Hr].
    - intros x r H. rewrite fold_new_m in H. destruct (mem x names); [|discriminate]. injection H as <-. constructor.
    - intros u v. split; [|tauto]. intros (r & H & Hv). rewrite fold_new_m in H. destruct (mem u names); [|discriminate]. injection H as <-. destruct Hv. }
  destruct (cok_run names ops _ _ C0) as (g & E & C). exists g. split; [exact E|]. exists (pairs (am_matrix g)). split; [|split].
  - apply pairs_nodup; [apply (ck _ _ _ C)|]. intros x r H. apply (cr _ _ _ C x r). apply In_sget; [apply (ck _ _ _ C)|exact H].
  - apply num_pairs.
  - intros u v. rewrite pairs_In by apply (ck _ _ _ C). rewrite (ct _ _ _ C). tauto.
Qed.
