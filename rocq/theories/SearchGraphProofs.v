(** Proofs for graph search (C74, C76). *)
From Coq Require Import Strings.String Strings.Ascii Sorting.Sorted.
From Verif Require Import Base DsfModel GraphModel GraphSpec GraphDict SearchGraphModel.
Import List.

Definition fresh (vis : list (string * bool)) (l : list string) : list string := filter (fun x => negb (mem x (map fst vis))) l.

Lemma app_assoc3 {A} (a b : list A) x : a ++ x :: b = (a ++ [x]) ++ b.
Proof. rewrite <- app_assoc. reflexivity. Qed.
Lemma get_true vis x : Forall (fun e : string * bool => snd e = true) vis -> sdget vis x = if mem x (map fst vis) then Some true else None.
Proof.
  intros H. destruct (mem_spec x (map fst vis)) as [HI|HI]; [|apply sget_none; exact HI]. destruct (sget_some vis x HI) as [b Hb]. rewrite Hb.
  apply sget_In in Hb. rewrite Forall_forall in H. apply H in Hb. simpl in Hb. subst. reflexivity.
Qed.

(** the inner loop when the operation always succeeds *)
Lemma visit_next_yes push u l : forall q vis calls, NoDup l -> Forall (fun e : string * bool => snd e = true) vis ->
  visit_next push yes u l (mkss q vis calls false) =
  Ret (mkss (fold_left push (fresh vis l) q) (vis ++ map (fun x => (x, true)) (fresh vis l)) (calls ++ map (fun x => (u, x)) (fresh vis l)) false).
Proof.
  unfold visit_next. induction l as [|x l IH]; intros q vis calls HN HT; [cbn; rewrite !app_nil_r; reflexivity|].
  cbn [forM ss_stopped ss_visited ss_calls ss_queue]. rewrite get_true by exact HT. inversion HN; subst. unfold fresh. cbn [filter].
  destruct (mem_spec x (map fst vis)) as [Hm|Hm]; cbn [negb bind].
  - apply IH; assumption.
  - unfold yes. cbn [negb bind]. fold yes. rewrite sset_new by exact Hm. rewrite IH; [|assumption|].
    2:{ apply Forall_app. split; [exact HT|constructor; [reflexivity|constructor]]. }
    assert (F : fresh (vis ++ [(x, true)]) l = fresh vis l).
    { unfold fresh. apply filter_ext_in. intros y Hy. rewrite map_app. unfold mem. rewrite existsb_app. simpl.
      destruct (SE y x) as [->|_]; [contradiction|]. rewrite !orb_false_r. reflexivity. }
    rewrite F. fold (fresh vis l). cbn [map fold_left]. rewrite <- !app_assoc. reflexivity.
Qed.
Lemma fresh_In vis l x : In x (fresh vis l) <-> In x l /\ ~ In x (map fst vis).
Proof. unfold fresh. rewrite filter_In. destruct (mem_spec x (map fst vis)); simpl; split; intros [A B]; split; auto; try easy. Qed.
Lemma fresh_nodup vis l : NoDup l -> NoDup (fresh vis l).
Proof. apply NoDup_filter. Qed.


Lemma discovered_app a b : discovered (a ++ b) = discovered a ++ discovered b.
Proof. unfold discovered. rewrite map_app, filter_app. reflexivity. Qed.
Lemma discovered_new u l : (forall x, In x l -> x <> EmptyString) -> discovered (map (fun x => (u, x)) l) = l.
Proof.
  intros H. unfold discovered. rewrite map_map. simpl. rewrite map_id. induction l as [|a l IH]; [reflexivity|]. simpl. destruct (SE a EmptyString) as [E|_].
  - exfalso. apply (H a); [left; reflexivity|exact E].
  - simpl. f_equal. apply IH. intros x Hx. apply H. right. exact Hx.
Qed.

Section S.
  Context (g : gview) (G : dg) (HG : represents g G) (s : string) (Hs : In s (fst G)).
  Lemma ord_v x : In x (fst G) -> x <> EmptyString.
  Proof. destruct HG as (_ & _ & O & _). rewrite Forall_forall in O. intros H. apply O. exact H. Qed.
  Lemma walk_in n v : walk G s n v -> In v (fst G).
  Proof. destruct HG as (_ & _ & _ & _ & HE & _). intros H. destruct H; [exact Hs|]. apply (HE u v H0). Qed.

  (** generic search: set-level invariant *)
  Record inv0 (st : sstate) (done : list string) : Prop := {
    i_run : ss_stopped st = false;
    i_t : Forall (fun e : string * bool => snd e = true) (ss_visited st);
    i_nd : NoDup (map fst (ss_visited st));
    i_perm : Permutation (map fst (ss_visited st)) (done ++ ss_queue st);
    i_hd : exists D, map fst (ss_visited st) = s :: D /\ discovered (ss_calls st) = D;
    i_reach : forall v, In v (map fst (ss_visited st)) -> reachable G s v;
    i_closed : forall u v, In u done -> is_edge G u v -> In v (map fst (ss_visited st));
    i_calls : forall c n, In (c, n) (ss_calls st) -> In c done /\ (n <> EmptyString -> is_edge G c n);
    i_leaf : forall c, In (c, EmptyString) (ss_calls st) <-> In c done /\ (forall v, ~ is_edge G c v);
    i_leaf1 : NoDup (map fst (filter (fun e => String.eqb (snd e) EmptyString) (ss_calls st))) }.

  Definition next_state (push : list string -> string -> list string) (u : string) (rest l : list string) (st : sstate) : sstate :=
    match l with
    | [] => mkss rest (ss_visited st) (ss_calls st ++ [(u, EmptyString)]) false
    | _ => mkss (fold_left push (fresh (ss_visited st) l) rest) (ss_visited st ++ map (fun x => (x, true)) (fresh (ss_visited st) l))
             (ss_calls st ++ map (fun x => (u, x)) (fresh (ss_visited st) l)) false
    end.

  Lemma inv0_next push st done u rest l : (forall l q, Permutation (fold_left push l q) (q ++ l)) ->
    inv0 st done -> ss_queue st = u :: rest -> NoDup l -> (forall v, In v l <-> is_edge G u v) -> inv0 (next_state push u rest l st) (done ++ [u]).
  Proof.
    intros HP I Hq Hnd Hl. destruct I as [I1 I2 I3 I4 I5 I6 I7 I8 I9 I10]. rewrite Hq in I4.
    assert (Hu : In u (map fst (ss_visited st))) by (eapply Permutation_in; [symmetry; exact I4|]; apply in_or_app; right; left; reflexivity).
    assert (Hud : ~ In u done).
    { intros X. apply (Permutation_NoDup I4) in I3. apply NoDup_remove_2 in I3. apply I3. apply in_or_app. left. exact X. }
    set (F := fresh (ss_visited st) l).
    assert (EQ : exists calls', next_state push u rest l st = mkss (fold_left push F rest) (ss_visited st ++ map (fun x => (x, true)) F) (ss_calls st ++ calls') false /\
       ((l = [] /\ calls' = [(u, EmptyString)] /\ F = []) \/ (l <> [] /\ calls' = map (fun x => (u, x)) F))).
    { unfold next_state, F. destruct l as [|a l]; eexists; (split; [|]).
      - cbn. rewrite app_nil_r. reflexivity.
      - left. auto.
      - reflexivity.
      - right. split; [discriminate|reflexivity]. }
    destruct EQ as (calls' & -> & HC).
    assert (HF : forall x, In x F -> is_edge G u x /\ ~ In x (map fst (ss_visited st))) by (intros x Hx; apply fresh_In in Hx as [A B]; rewrite Hl in A; auto).
    assert (HFo : forall x, In x F -> x <> EmptyString).
    { intros x Hx. apply ord_v. destruct HG as (_ & _ & _ & _ & HE & _). apply (HE u x). apply HF. exact Hx. }
    assert (MF : map fst (map (fun x => (x, true)) F) = F) by (rewrite map_map; simpl; apply map_id).
    constructor; cbn [ss_stopped ss_visited ss_queue ss_calls]; rewrite ?map_app, ?MF.
    - reflexivity.
    - apply Forall_app. split; [exact I2|]. apply Forall_forall. intros e He. apply in_map_iff in He as (x & <- & _). reflexivity.
    - apply (Permutation_NoDup (l := F ++ map fst (ss_visited st))); [apply Permutation_app_comm|].
      assert (NF : NoDup F) by (apply fresh_nodup; exact Hnd). clear - NF HF I3. induction F as [|x F IH]; [exact I3|]. simpl. inversion NF; subst. constructor.
      + intros X. apply in_app_or in X as [X|X]; [contradiction|]. apply (HF x); [left; reflexivity|exact X].
      + apply IH; [intros y Hy; apply HF; right; exact Hy|assumption].
    - rewrite HP. rewrite I4. rewrite <- !app_assoc. simpl. reflexivity.
    - destruct I5 as (D & E1 & E2). exists (D ++ F). split; [rewrite E1; reflexivity|]. rewrite discovered_app, E2. f_equal.
      destruct HC as [(_ & -> & ->)|(_ & ->)]; [reflexivity|]. apply discovered_new. exact HFo.
    - intros v Hv. apply in_app_or in Hv as [Hv|Hv]; [apply I6; exact Hv|]. destruct (I6 u Hu) as [n Hn]. exists (S n). apply (walk_snoc G s n u v Hn). apply HF. exact Hv.
    - intros a v Ha Hav. apply in_or_app. apply in_app_or in Ha as [Ha|[<-|[]]]; [left; apply (I7 a v); assumption|].
      apply Hl in Hav. destruct (in_dec SD v (map fst (ss_visited st))) as [X|X]; [left; exact X|]. right. apply fresh_In. split; assumption.
    - intros c n Hc. apply in_app_or in Hc as [Hc|Hc].
      + destruct (I8 c n Hc) as [A B]. split; [apply in_or_app; left; exact A|exact B].
      + destruct HC as [(_ & -> & _)|(_ & ->)].
        * destruct Hc as [[= <- <-]|[]]. split; [apply in_or_app; right; left; reflexivity|]. intros X. contradiction.
        * apply in_map_iff in Hc as (x & [= <- <-] & Hx). split; [apply in_or_app; right; left; reflexivity|]. intros _. apply HF. exact Hx.
    - intros c. rewrite !in_app_iff. rewrite I9. destruct HC as [(E & -> & _)|(E & ->)].
      + subst l. simpl. split.
        * intros [[A B]|[[= <-]|[]]]; [tauto|]. split; [right; left; reflexivity|]. intros v Hv. apply Hl in Hv. destruct Hv.
        * intros [[A|[<-|[]]] B]; [left; tauto|right; left; reflexivity].
      + split.
        * intros [[A B]|A]; [tauto|]. exfalso. apply in_map_iff in A as (x & [= _ E2] & Hx). apply (HFo x Hx). auto.
        * intros [[A|[<-|[]]] B]; [left; tauto|]. exfalso. destruct l as [|a l]; [contradiction|]. apply (B a). apply Hl. left. reflexivity.
    - rewrite filter_app, map_app. destruct HC as [(E & -> & _)|(E & ->)].
      + simpl. apply (Permutation_NoDup (l := u :: map fst (filter (fun e => String.eqb (snd e) EmptyString) (ss_calls st)))); [apply Permutation_cons_append|]. constructor; [|exact I10].
        intros X. apply in_map_iff in X as ([a b] & <- & X). apply filter_In in X as [X _]. simpl in Hud. apply Hud. apply (I8 a b). exact X.
      + assert (EF : filter (fun e => String.eqb (snd e) EmptyString) (map (fun x => (u, x)) F) = []).
        { clear - HFo. induction F as [|x F IH]; [reflexivity|]. simpl. destruct (SE x EmptyString) as [E|_]; [exfalso; apply (HFo x); [left; reflexivity|exact E]|]. apply IH. intros y Hy. apply HFo. right. exact Hy. }
        rewrite EF. simpl. rewrite app_nil_r. exact I10.
  Qed.

  Lemma inv0_start : inv0 (mkss [s] [(s, true)] [] false) [].
  Proof.
    constructor; cbn [ss_stopped ss_visited ss_queue ss_calls map fst app].
    - reflexivity.
    - constructor; [reflexivity|constructor].
    - constructor; [intros []|constructor].
    - reflexivity.
    - exists []. split; reflexivity.
    - intros v [<-|[]]. exists O. constructor.
    - intros u v [].
    - intros c n [].
    - intros c. split; [intros []|intros [[] _]].
    - constructor.
  Qed.

  Lemma inv0_end st done : inv0 st done -> ss_queue st = [] -> forall v, In v (map fst (ss_visited st)) <-> reachable G s v.
  Proof.
    intros I Hq v. split; [apply (i_reach _ _ I)|]. intros [n Hn]. induction Hn as [|n u v Hn IH He].
    - destruct (i_hd _ _ I) as (D & E & _). rewrite E. left. reflexivity.
    - apply (i_closed _ _ I u v); [|exact He]. assert (P := i_perm _ _ I). rewrite Hq, app_nil_r in P. apply (Permutation_in u P). exact IH.
  Qed.

  Lemma inv0_len st done : inv0 st done -> (length done + length (ss_queue st) <= length (fst G))%nat.
  Proof.
    intros I. rewrite <- app_length. rewrite <- (Permutation_length (i_perm _ _ I)). apply NoDup_incl_length; [apply (i_nd _ _ I)|].
    intros v Hv. destruct (i_reach _ _ I v Hv) as [n Hn]. eapply walk_in. exact Hn.
  Qed.

  (** the loop with an always-true operation *)
  Lemma search_run push (J : sstate -> list string -> Prop) :
    (forall l q, Permutation (fold_left push l q) (q ++ l)) ->
    J (mkss [s] [(s, true)] [] false) [] ->
    (forall st done u rest l, inv0 st done -> J st done -> ss_queue st = u :: rest -> NoDup l -> (forall v, In v l <-> is_edge G u v) -> J (next_state push u rest l st) (done ++ [u])) ->
    exists st done, search push g s yes = Ret (ss_calls st) /\ inv0 st done /\ J st done /\ ss_queue st = [].
  Proof.
    intros HP J0 JN. unfold search, search_loop.
    assert (A : forall fuel st done, inv0 st done -> J st done -> (length (fst G) < fuel + length done)%nat ->
      exists st' done', while_loop fuel (fun st =>
    match ss_queue st with
    | [] => Ret (Break (ss_calls st))
    | curr_node :: rest =>
      next_nodes <- gv_neighbors g curr_node ;;
      let st := mkss rest (ss_visited st) (ss_calls st) (ss_stopped st) in
      match next_nodes with
      | _ :: _ =>
        st <- visit_next push yes curr_node next_nodes st ;;
        if ss_stopped st then Ret (Break (ss_calls st)) else Ret (Next st)
      | [] =>
        let status := yes (ss_calls st) curr_node EmptyString in
        let calls := ss_calls st ++ [(curr_node, EmptyString)] in
        if negb status then Ret (Break calls) else Ret (Next (mkss rest (ss_visited st) calls false))
      end
    end) st = Ret (ss_calls st') /\ inv0 st' done' /\ J st' done' /\ ss_queue st' = []).
    { induction fuel as [|f IH]; intros st done I HJ Hf.
      - assert (L := inv0_len st done I). lia.
      - cbn [while_loop]. destruct (ss_queue st) as [|u rest] eqn:Eq; [exists st, done; auto|].
        assert (Hu : In u (fst G)).
        { assert (X : In u (map fst (ss_visited st))) by (eapply Permutation_in; [symmetry; apply (i_perm _ _ I)|]; rewrite Eq; apply in_or_app; right; left; reflexivity).
          destruct (i_reach _ _ I u X) as [n Hn]. eapply walk_in. exact Hn. }
        destruct HG as (_ & _ & _ & _ & _ & HN). destruct (HN u Hu) as (l & El & NDl & Hl). rewrite El. cbn [bind].
        assert (I' := inv0_next push st done u rest l HP I Eq NDl Hl). assert (J' := JN st done u rest l I HJ Eq NDl Hl).
        specialize (IH (next_state push u rest l st) (done ++ [u]) I' J'). rewrite app_length in IH. simpl in IH. specialize (IH ltac:(lia)).
        rewrite (i_run _ _ I). destruct l as [|a l].
        + cbn [yes negb]. exact IH.
        + rewrite visit_next_yes; [|exact NDl|apply (i_t _ _ I)]. cbn [bind ss_stopped]. exact IH. }
    assert (EV : gv_vertices g = fst G) by apply HG. rewrite EV. apply (A _ _ []); [apply inv0_start|exact J0|simpl; lia].
  Qed.

  Lemma push_back l q : Permutation (fold_left (fun (q : list string) x => q ++ [x]) l q) (q ++ l).
  Proof. revert q. induction l as [|a l IH]; intros q; simpl; [rewrite app_nil_r; reflexivity|]. rewrite IH. rewrite <- app_assoc. reflexivity. Qed.
  Lemma push_back_eq l q : fold_left (fun (q : list string) x => q ++ [x]) l q = q ++ l.
  Proof. revert q. induction l as [|a l IH]; intros q; simpl; [rewrite app_nil_r; reflexivity|]. rewrite IH. rewrite <- app_assoc. reflexivity. Qed.
  Lemma push_front l q : Permutation (fold_left (fun (q : list string) x => x :: q) l q) (q ++ l).
  Proof. revert q. induction l as [|a l IH]; intros q; simpl; [rewrite app_nil_r; reflexivity|]. rewrite IH. simpl. apply Permutation_middle. Qed.

  (** breadth-first: distances *)
  Record invb (st : sstate) (done : list string) : Prop := {
    b_eq : map fst (ss_visited st) = done ++ ss_queue st;
    b_lab : exists lab : string -> nat, lab s = O /\
      (forall v, In v (map fst (ss_visited st)) -> walk G s (lab v) v) /\
      StronglySorted (fun a b => (lab a <= lab b)%nat) (map fst (ss_visited st)) /\
      (forall v x, In v (map fst (ss_visited st)) -> In x (ss_queue st) -> (lab v <= S (lab x))%nat) /\
      (forall u v, In u done -> is_edge G u v -> (lab v <= S (lab u))%nat) /\
      (forall c n, In (c, n) (ss_calls st) -> n <> EmptyString -> lab n = S (lab c)) }.
  Lemma SS_app (R : string -> string -> Prop) l1 l2 : StronglySorted R l1 -> StronglySorted R l2 -> (forall a b, In a l1 -> In b l2 -> R a b) -> StronglySorted R (l1 ++ l2).
  Proof.
    induction l1 as [|a l1 IH]; intros H1 H2 H; [exact H2|]. simpl. inversion H1; subst. constructor; [apply IH; auto; intros; apply H; [right|]; assumption|].
    apply Forall_app. split; [assumption|]. apply Forall_forall. intros b Hb. apply H; [left; reflexivity|exact Hb].
  Qed.
  Lemma SS_app_inv (R : string -> string -> Prop) l1 l2 a b : StronglySorted R (l1 ++ l2) -> In a l1 -> In b l2 -> R a b.
  Proof.
    induction l1 as [|x l1 IH]; intros H Ha Hb; [destruct Ha|]. simpl in H. inversion H; subst. destruct Ha as [->|Ha]; [|apply IH; assumption].
    rewrite Forall_forall in H3. apply H3. apply in_or_app. right. exact Hb.
  Qed.
  Lemma SS_ext (R R' : string -> string -> Prop) l : (forall a b, In a l -> In b l -> R a b -> R' a b) -> StronglySorted R l -> StronglySorted R' l.
  Proof.
    induction l as [|a l IH]; intros H HS; [constructor|]. inversion HS; subst. constructor; [apply IH; [|assumption]; intros; apply H; try right; assumption|].
    apply Forall_forall. intros b Hb. rewrite Forall_forall in H3. apply H; [left; reflexivity|right; exact Hb|auto].
  Qed.

  Lemma invb_next st done u rest l : inv0 st done -> invb st done -> ss_queue st = u :: rest -> NoDup l -> (forall v, In v l <-> is_edge G u v) ->
    invb (next_state (fun q x => q ++ [x]) u rest l st) (done ++ [u]).
  Proof.
    intros I [B1 (lab & L0 & L1 & L2 & L3 & L4 & L5)] Eq NDl Hl. rewrite Eq in B1. set (F := fresh (ss_visited st) l).
    assert (HF : forall x, In x F -> is_edge G u x /\ ~ In x (map fst (ss_visited st))) by (intros x Hx; apply fresh_In in Hx as [A B]; rewrite Hl in A; auto).
    assert (EQ : exists calls', next_state (fun q x => q ++ [x]) u rest l st = mkss (rest ++ F) (ss_visited st ++ map (fun x => (x, true)) F) (ss_calls st ++ calls') false /\
       (forall c n, In (c, n) calls' -> n <> EmptyString -> c = u /\ In n F)).
    { unfold next_state, F. destruct l as [|a l]; eexists; (split; [|]).
      - cbn. rewrite (app_nil_r rest), (app_nil_r (ss_visited st)). reflexivity.
      - intros c n [[= <- <-]|[]] X. contradiction.
      - rewrite push_back_eq. reflexivity.
      - intros c n X _. apply in_map_iff in X as (x & [= <- <-] & Hx). auto. }
    destruct EQ as (calls' & -> & HC).
    assert (MF : map fst (map (fun x => (x, true)) F) = F) by (rewrite map_map; simpl; apply map_id).
    assert (Hu : In u (map fst (ss_visited st))) by (rewrite B1; apply in_or_app; right; left; reflexivity).
    constructor; cbn [ss_visited ss_queue ss_calls]; rewrite ?map_app, ?MF.
    - rewrite B1. rewrite <- !app_assoc. reflexivity.
    - set (lab' := fun x => if mem x F then S (lab u) else lab x). exists lab'.
      assert (LF : forall x, In x F -> lab' x = S (lab u)) by (intros x Hx; unfold lab'; apply mem_true in Hx; rewrite Hx; reflexivity).
      assert (LO : forall x, In x (map fst (ss_visited st)) -> lab' x = lab x).
      { intros x Hx. unfold lab'. destruct (mem_spec x F) as [X|X]; [|reflexivity]. exfalso. apply (HF x X). exact Hx. }
      assert (Lur : forall x, In x rest -> (lab u <= lab x)%nat).
      { intros x Hx. rewrite B1 in L2. rewrite (app_assoc3 done rest u) in L2. eapply (SS_app_inv _ _ rest u x L2); [apply in_or_app; right; left; reflexivity|exact Hx]. }
      split; [|split; [|split; [|split; [|split]]]].
      + rewrite LO; [exact L0|]. destruct (i_hd _ _ I) as (D & E & _). rewrite E. left. reflexivity.
      + intros v Hv. apply in_app_or in Hv as [Hv|Hv]; [rewrite LO by exact Hv; apply L1; exact Hv|]. rewrite LF by exact Hv. apply (walk_snoc G s _ u v); [apply L1; exact Hu|apply HF; exact Hv].
      + apply SS_app.
        * eapply SS_ext; [|exact L2]. intros a b Ha Hb Hab. cbv beta in *. rewrite !LO by assumption. exact Hab.
        * clearbody lab' F. clear - LF. induction F as [|x F IH]; [constructor|]. constructor.
          -- apply (SS_ext (fun a b => (lab' a <= lab' b)%nat)); [auto|]. apply IH. intros y Hy. apply LF. right. exact Hy.
          -- apply Forall_forall. intros y Hy. rewrite (LF x) by (left; reflexivity). rewrite (LF y) by (right; exact Hy). lia.
        * intros a b Ha Hb. rewrite LO by exact Ha. rewrite LF by exact Hb. apply L3; [exact Ha|rewrite Eq; left; reflexivity].
      + assert (Hr : forall x, In x rest -> In x (map fst (ss_visited st))) by (intros x Hx; rewrite B1; apply in_or_app; right; right; exact Hx).
        intros v x Hv Hx. apply in_app_or in Hv as [Hv|Hv]; apply in_app_or in Hx as [Hx|Hx].
        * rewrite !LO by auto. apply L3; [exact Hv|rewrite Eq; right; exact Hx].
        * rewrite LO by auto. rewrite LF by auto. assert (X := L3 v u Hv ltac:(rewrite Eq; left; reflexivity)). lia.
        * rewrite (LF v) by auto. rewrite LO by auto. assert (X := Lur x Hx). lia.
        * rewrite !LF by auto. lia.
      + intros a v Ha Hav. assert (Ha' : In a (map fst (ss_visited st))) by (rewrite B1; rewrite (app_assoc3 done rest u); apply in_or_app; left; exact Ha).
        rewrite (LO a) by exact Ha'. apply in_app_or in Ha as [Ha|[<-|[]]].
        * assert (Hv := i_closed _ _ I a v Ha Hav). rewrite LO by exact Hv. apply L4; assumption.
        * destruct (in_dec SD v (map fst (ss_visited st))) as [X|X].
          -- rewrite LO by exact X. apply L3; [exact X|rewrite Eq; left; reflexivity].
          -- rewrite LF; [lia|]. apply fresh_In. split; [apply Hl; exact Hav|exact X].
      + intros c n Hc Hn. apply in_app_or in Hc as [Hc|Hc].
        * destruct (i_calls _ _ I c n Hc) as [Hcd He]. specialize (He Hn). rewrite (LO n) by (apply (i_closed _ _ I c n Hcd He)).
          rewrite LO; [apply L5; assumption|]. rewrite B1. apply in_or_app. left. exact Hcd.
        * destruct (HC c n Hc Hn) as [-> HnF]. rewrite LF by exact HnF. rewrite LO by exact Hu. reflexivity.
  Qed.

  Lemma bfs_main : exists calls, breadth_first_search g s yes = Ret calls /\
    let D := s :: discovered calls in
    NoDup D /\ (forall v, In v D <-> reachable G s v) /\
    (exists dist : string -> nat, (forall v, In v D -> distance G s v (dist v)) /\ StronglySorted (fun a b => (dist a <= dist b)%nat) D /\
       (forall c n, In (c, n) calls -> n <> EmptyString -> is_edge G c n /\ dist n = S (dist c))) /\
    (forall c, In (c, EmptyString) calls <-> reachable G s c /\ (forall v, ~ is_edge G c v)) /\
    NoDup (map fst (filter (fun e => String.eqb (snd e) EmptyString) calls)).
  Proof.
    destruct (search_run (fun q x => q ++ [x]) invb) as (st & done & E & I & [B1 (lab & L0 & L1 & L2 & L3 & L4 & L5)] & Hq).
    - intros l q. apply push_back.
    - constructor; [reflexivity|]. exists (fun _ => O). cbn. split; [reflexivity|]. split; [intros v [<-|[]]; constructor|].
      split; [constructor; [constructor|constructor]|]. split; [intros; lia|]. split; [intros u v []|intros c n []].
    - intros. apply invb_next; assumption.
    - exists (ss_calls st). split; [exact E|]. destruct (i_hd _ _ I) as (D & E1 & E2). rewrite E2. rewrite <- E1. cbv zeta.
      assert (Hdone : forall v, In v done <-> reachable G s v).
      { intros v. rewrite <- (inv0_end st done I Hq). rewrite B1, Hq, app_nil_r. reflexivity. }
      split; [apply (i_nd _ _ I)|]. split; [apply (inv0_end st done I Hq)|]. split; [|split; [|apply (i_leaf1 _ _ I)]].
      + exists lab. split; [|split; [exact L2|]].
        * intros v Hv. split; [apply L1; exact Hv|]. intros m Hm. clear Hv. induction Hm as [|m u v Hm IH He]; [rewrite L0; lia|].
          assert (X := L4 u v). assert (Hu : In u done) by (apply Hdone; exists m; exact Hm). specialize (X Hu He). lia.
        * intros c n Hc Hn. split; [apply (i_calls _ _ I c n Hc); exact Hn|apply L5; assumption].
      + intros c. rewrite (i_leaf _ _ I). rewrite Hdone. reflexivity.
  Qed.
  Lemma dfs_main : exists calls, depth_first_search g s yes = Ret calls /\
    let D := s :: discovered calls in
    NoDup D /\ (forall v, In v D <-> reachable G s v) /\
    (forall c n, In (c, n) calls -> n <> EmptyString -> is_edge G c n) /\
    (forall c, In (c, EmptyString) calls <-> reachable G s c /\ (forall v, ~ is_edge G c v)) /\
    NoDup (map fst (filter (fun e => String.eqb (snd e) EmptyString) calls)).
  Proof.
    destruct (search_run (fun q x => x :: q) (fun _ _ => True)) as (st & done & E & I & _ & Hq).
    - intros l q. apply push_front.
    - exact Logic.I.
    - auto.
    - exists (ss_calls st). split; [exact E|]. destruct (i_hd _ _ I) as (D & E1 & E2). rewrite E2. rewrite <- E1. cbv zeta.
      assert (Hdone : forall v, In v done <-> reachable G s v).
      { intros v. rewrite <- (inv0_end st done I Hq). assert (P := i_perm _ _ I). rewrite Hq, app_nil_r in P.
        split; intros X; [apply (Permutation_in v (Permutation_sym P))|apply (Permutation_in v P)]; exact X. }
      split; [apply (i_nd _ _ I)|]. split; [apply (inv0_end st done I Hq)|]. split; [|split; [|apply (i_leaf1 _ _ I)]].
      + intros c n Hc Hn. apply (i_calls _ _ I c n Hc). exact Hn.
      + intros c. rewrite (i_leaf _ _ I). rewrite Hdone. reflexivity.
  Qed.
End S.

(** ** Stopping: with any operation, the calls are those of the full search up to and including the first falsy one *)
Section Stop.
  Context (push : list string -> string -> list string) (g : gview) (op : operation).
  (** the inner loop: either no call was falsy and the states agree, or it stopped *)
  Lemma visit_stop u l : forall st st', ss_stopped st = false -> visit_next push yes u l st = Ret st' -> exists ext,
    ss_calls st' = ss_calls st ++ ext /\ ss_stopped st' = false /\
    ((visit_next push op u l st = Ret st' /\ forall rest, upto op (ss_calls st) (ext ++ rest) = upto op (ss_calls st') rest) \/
     (exists st'', visit_next push op u l st = Ret st'' /\ ss_stopped st'' = true /\ forall rest, upto op (ss_calls st) (ext ++ rest) = ss_calls st'')).
  Proof.
    unfold visit_next. induction l as [|x l IH]; intros st st' Hst E.
    - cbn in *. injection E as <-. exists []. rewrite app_nil_r. split; [reflexivity|]. split; [exact Hst|]. left. auto.
    - cbn [forM] in *. rewrite Hst in *. destruct (sdget (ss_visited st) x) as [[|]|] eqn:Ex; cbn [bind] in *.
      + apply IH; assumption.
      + unfold yes in E at 1. cbn [negb bind] in E. destruct (op (ss_calls st) u x) eqn:Eo; cbn [negb bind].
        * destruct (IH _ st' (eq_refl : ss_stopped (mkss (push (ss_queue st) x) (sdset (ss_visited st) x true) (ss_calls st ++ [(u, x)]) false) = false) E) as (ext & E1 & E2 & E3). exists ((u, x) :: ext). cbn [ss_calls] in *. rewrite E1 in *. split; [rewrite <- app_assoc; reflexivity|].
          split; [exact E2|]. cbn [app upto]. rewrite Eo. exact E3.
        * destruct (IH _ st' (eq_refl : ss_stopped (mkss (push (ss_queue st) x) (sdset (ss_visited st) x true) (ss_calls st ++ [(u, x)]) false) = false) E) as (ext & E1 & E2 & E3). exists ((u, x) :: ext). cbn [ss_calls] in *. rewrite E1 in *. split; [rewrite <- app_assoc; reflexivity|].
          split; [exact E2|]. right. exists (mkss (ss_queue st) (ss_visited st) (ss_calls st ++ [(u, x)]) true). split; [|split; [reflexivity|]].
          -- clear. induction l as [|y l IH]; [reflexivity|]. cbn. exact IH.
          -- intros rest. cbn [app upto ss_calls]. rewrite Eo. reflexivity.
      + unfold yes in E at 1. cbn [negb bind] in E. destruct (op (ss_calls st) u x) eqn:Eo; cbn [negb bind].
        * destruct (IH _ st' (eq_refl : ss_stopped (mkss (push (ss_queue st) x) (sdset (ss_visited st) x true) (ss_calls st ++ [(u, x)]) false) = false) E) as (ext & E1 & E2 & E3). exists ((u, x) :: ext). cbn [ss_calls] in *. rewrite E1 in *. split; [rewrite <- app_assoc; reflexivity|].
          split; [exact E2|]. cbn [app upto]. rewrite Eo. exact E3.
        * destruct (IH _ st' (eq_refl : ss_stopped (mkss (push (ss_queue st) x) (sdset (ss_visited st) x true) (ss_calls st ++ [(u, x)]) false) = false) E) as (ext & E1 & E2 & E3). exists ((u, x) :: ext). cbn [ss_calls] in *. rewrite E1 in *. split; [rewrite <- app_assoc; reflexivity|].
          split; [exact E2|]. right. exists (mkss (ss_queue st) (ss_visited st) (ss_calls st ++ [(u, x)]) true). split; [|split; [reflexivity|]].
          -- clear. induction l as [|y l IH]; [reflexivity|]. cbn. exact IH.
          -- intros rest. cbn [app upto ss_calls]. rewrite Eo. reflexivity.
  Qed.
  Lemma search_stop fuel : forall st calls, ss_stopped st = false -> search_loop push g yes fuel st = Ret calls ->
    exists ext, calls = ss_calls st ++ ext /\ search_loop push g op fuel st = Ret (upto op (ss_calls st) ext).
  Proof.
    unfold search_loop. induction fuel as [|f IH]; intros st calls Hst E; [discriminate|]. cbn [while_loop] in *.
    destruct (ss_queue st) as [|u rest] eqn:Eq.
    - injection E as <-. exists []. rewrite app_nil_r. split; reflexivity.
    - destruct (gv_neighbors g u) as [l| |] eqn:El; cbn [bind] in *; try discriminate. destruct l as [|a l].
      + destruct (IH (mkss rest (ss_visited st) (ss_calls st ++ [(u, EmptyString)]) false) calls eq_refl E) as (ext & E1 & E2). exists ((u, EmptyString) :: ext).
        cbn [ss_calls] in *. split; [rewrite E1, <- app_assoc; reflexivity|]. cbn [upto]. destruct (op (ss_calls st) u EmptyString) eqn:Eo; cbn [negb]; [exact E2|reflexivity].
      + destruct (visit_next push yes u (a :: l) _) as [st'| |] eqn:Ev; cbn [bind] in E; try discriminate.
        destruct (visit_stop u (a :: l) (mkss rest (ss_visited st) (ss_calls st) (ss_stopped st)) st' Hst Ev) as (ext1 & E1 & E2 & E3). rewrite E2 in E. destruct (IH _ _ E2 E) as (ext2 & E4 & E5).
        cbn [ss_calls] in E1. exists (ext1 ++ ext2). split; [rewrite E4, E1, <- app_assoc; reflexivity|].
        destruct E3 as [(E3 & E6)|(st'' & E3 & E6 & E7)].
        * rewrite E3. cbn [bind]. rewrite E2. cbn [ss_calls] in E6. rewrite E6. exact E5.
        * rewrite E3. cbn [bind]. rewrite E6. cbn [ss_calls] in E7. rewrite E7. reflexivity.
  Qed.
  Lemma search_stop_top s calls : search push g s yes = Ret calls -> search push g s op = Ret (upto op [] calls).
  Proof. intros E. apply search_stop in E as (ext & -> & E); [exact E|reflexivity]. Qed.
End Stop.
