(** Proofs for the trie. *)
From Verif Require Import Base DsfModel DsfProofs StringSpec TrieModel TrieSpec.

Lemma trie_ind' {A} (P : trie A -> Prop) : (forall b ch, Forall (fun x => P (snd x)) ch -> P (TN b ch)) -> forall t, P t.
Proof.
  intros H. fix IH 1. intros [b ch]. apply H. induction ch as [|[c t] ch IHch]; constructor; [apply IH|exact IHch].
Qed.

Section T.
  Context {A : Type} (eqb : A -> A -> bool) (DE : decides_eq eqb).
  Lemma ES x y : reflect (x = y) (eqb x y).
  Proof. pose proof (DE x y) as H. destruct (eqb x y); constructor; intuition congruence. Qed.
  Notation dget := (dget eqb). Notation dset := (dset eqb).
  Notation insertedb := (is_inserted eqb). Notation presentb := (is_present eqb).
  Lemma adec (x y : A) : {x = y} + {x <> y}.
  Proof. destruct (ES x y); [left|right]; assumption. Qed.
  Definition ins (t : trie A) (s : list A) : Prop := insertedb t s = true.

  Lemma ins_insert s : forall t x, ins (trie_insert eqb t s) x <-> x = s \/ ins t x.
  Proof.
    unfold ins. induction s as [|c s IH]; intros t x; cbn [trie_insert].
    - destruct x as [|a x]; cbn [is_inserted t_term]; [tauto|]. unfold get_child. cbn [t_children]. split; [auto|]. intros [H|H]; [discriminate|exact H].
    - set (sub := match get_child eqb t c with None => TN false [] | Some w => w end).
      replace (match get_child eqb t c with None => _ | Some _ => _ end) with (TN (t_term t) (dset (t_children t) c (trie_insert eqb sub s))) by (unfold sub; destruct (get_child eqb t c); reflexivity).
      destruct x as [|a x]; cbn [is_inserted t_term]; [split; [auto|]; intros [H|H]; [discriminate|exact H]|].
      unfold get_child at 1. cbn [t_children]. rewrite (dget_dset eqb ES). destruct (ES a c) as [->|NE].
      + rewrite IH. unfold sub. destruct (get_child eqb t c) as [w|] eqn:E.
        * cbn [is_inserted]. split; (intros [H|H]; [left; congruence|right; exact H]).
        * split; intros [H|H]; [left; congruence| |left; congruence|discriminate]. right. destruct x; discriminate.
      + fold (get_child eqb t a). split; [auto|]. intros [H|H]; [congruence|exact H].
  Qed.
  Lemma remove_get (ch : list (A * trie A)) c a : dget (remove_child eqb ch c) a = if eqb a c then None else dget ch a.
  Proof.
    induction ch as [|[k v] ch IH]; cbn [remove_child filter DsfModel.dget fst]; [destruct (eqb a c); reflexivity|].
    destruct (ES k c) as [->|NE]; cbn [negb].
    - fold (remove_child eqb ch c). rewrite IH. destruct (ES a c); reflexivity.
    - cbn [DsfModel.dget]. fold (remove_child eqb ch c). rewrite IH. destruct (ES a k) as [->|]; [destruct (ES k c); congruence|reflexivity].
  Qed.
  Lemma delete_spec s : forall t, match delete_rec eqb t s with
     | None => presentb t s = false
     | Some (t', running) => presentb t s = true /\ (running = true -> t_term t' = false) /\ forall x, ins t' x <-> ins t x /\ x <> s
     end.
  Proof.
    unfold ins. induction s as [|c s IH]; intros t; cbn [delete_rec is_present].
    - split; [reflexivity|]. split; [reflexivity|]. intros [|a x]; cbn [is_inserted t_term]; [split; [discriminate|tauto]|].
      unfold get_child. cbn [t_children]. split; [intros H; split; [exact H|discriminate]|tauto].
    - destruct (get_child eqb t c) as [w|] eqn:E; [|reflexivity]. specialize (IH w). destruct (delete_rec eqb w s) as [[w' r]|]; [|exact IH].
      destruct IH as (I1 & I2 & I3). destruct (r && match t_children w' with [] => true | _ => false end) eqn:R.
      + apply andb_prop in R. destruct R as [-> R]. split; [exact I1|]. split; [cbn [t_term]; destruct (t_term t); cbn [negb]; congruence|].
        intros [|a x]; cbn [is_inserted t_term]; [split; [intros H; split; [exact H|discriminate]|tauto]|].
        unfold get_child at 1. cbn [t_children]. rewrite remove_get. rewrite (dget_dset eqb ES). destruct (ES a c) as [->|NE].
        * rewrite E. split; [discriminate|]. intros [H1 H2]. exfalso. assert (H : is_inserted eqb w' x = true) by (apply I3; split; [exact H1|congruence]).
          destruct x as [|y x]; cbn [is_inserted] in H; [rewrite I2 in H by reflexivity; discriminate|]. unfold get_child in H. destruct (t_children w'); cbn in H, R; discriminate.
        * fold (get_child eqb t a). split; [intros H; split; [exact H|congruence]|tauto].
      + split; [exact I1|]. split; [discriminate|]. intros [|a x]; cbn [is_inserted t_term]; [split; [intros H; split; [exact H|discriminate]|tauto]|].
        unfold get_child at 1. cbn [t_children]. rewrite (dget_dset eqb ES). destruct (ES a c) as [->|NE].
        * rewrite E, I3. split; intros [H1 H2]; (split; [exact H1|congruence]).
        * fold (get_child eqb t a). split; [intros H; split; [exact H|congruence]|tauto].
  Qed.

  (** no dead branches: every child leads to an inserted string *)
  Definition alive (t : trie A) : Prop := exists x, ins t x.
  Fixpoint wf (t : trie A) : Prop :=
    let 'TN _ ch := t in NoDup (map fst ch) /\ fold_right (fun x P => (wf (snd x) /\ alive (snd x)) /\ P) True ch.
  Definition wfs (ch : list (A * trie A)) : Prop := NoDup (map fst ch) /\ Forall (fun x => wf (snd x) /\ alive (snd x)) ch.
  Lemma wf_eq b ch : wf (TN b ch) <-> wfs ch.
  Proof.
    unfold wfs. cbn [wf]. assert (E : fold_right (fun x P => (wf (snd x) /\ alive (snd x)) /\ P) True ch <-> Forall (fun x => wf (snd x) /\ alive (snd x)) ch); [|rewrite E; reflexivity].
    induction ch as [|x ch IH]; cbn [fold_right]; [split; constructor|]. rewrite IH. split; [intros [H1 H2]; constructor; assumption|intros H; inversion H; auto].
  Qed.
  Lemma wf_children t : wf t <-> wfs (t_children t).
  Proof. destruct t as [b ch]. apply wf_eq. Qed.
  Lemma dget_In {V} (ch : list (A * V)) c v : dget ch c = Some v -> In (c, v) ch.
  Proof. induction ch as [|[k w] ch IH]; cbn [DsfModel.dget]; [discriminate|]. destruct (ES c k) as [->|]; [intros [= ->]; left; reflexivity|right; auto]. Qed.
  Lemma In_dget {V} (ch : list (A * V)) c v : NoDup (map fst ch) -> In (c, v) ch -> dget ch c = Some v.
  Proof.
    induction ch as [|[k w] ch IH]; cbn [DsfModel.dget map fst]; [intros _ []|]. intros N [H|H]; inversion N; subst.
    - inversion H; subst. destruct (ES c c); congruence.
    - destruct (ES c k) as [->|]; [exfalso; apply H2; apply in_map_iff; exists (k, v); auto|auto].
  Qed.
  Lemma wfs_get ch c w : wfs ch -> dget ch c = Some w -> wf w /\ alive w.
  Proof. intros [_ F] E. apply dget_In in E. rewrite Forall_forall in F. apply (F _ E). Qed.
  Lemma wfs_set ch c w : wfs ch -> wf w -> alive w -> wfs (dset ch c w).
  Proof.
    intros [N F] Hw Ha. destruct (in_dec adec c (map fst ch)) as [Hi|Hi].
    - split; [rewrite (dset_keys eqb ES) by exact Hi; exact N|]. clear N Hi. induction F as [|[k v] ch H F IH]; cbn [DsfModel.dset]; [repeat constructor; assumption|].
      destruct (eqb c k); constructor; auto.
    - rewrite (dset_new eqb ES) by exact Hi. split.
      + rewrite map_app. cbn [map fst]. apply Permutation_NoDup with (c :: map fst ch); [apply Permutation_cons_append|]. constructor; assumption.
      + apply Forall_app. split; [exact F|repeat constructor; assumption].
  Qed.
  Lemma wfs_remove ch c : wfs ch -> wfs (remove_child eqb ch c).
  Proof.
    intros [N F]. split.
    - clear F. induction ch as [|[k v] ch IH]; cbn [remove_child filter fst]; [constructor|]. inversion N; subst. fold (remove_child eqb ch c) in *. destruct (negb (eqb k c)); [|auto].
      cbn [map fst]. constructor; [|auto]. intros Hk. apply H1. apply in_map_iff in Hk. destruct Hk as (y & <- & Hy). apply filter_In in Hy. apply in_map. tauto.
    - apply Forall_forall. intros x Hx. apply filter_In in Hx. rewrite Forall_forall in F. apply F. tauto.
  Qed.
  Lemma wf_insert s : forall t, wf t -> wf (trie_insert eqb t s).
  Proof.
    induction s as [|c s IH]; intros t Ht; cbn [trie_insert].
    - apply wf_eq. apply wf_children, Ht.
    - apply wf_children in Ht. destruct (get_child eqb t c) as [w|] eqn:E; apply wf_eq; (apply wfs_set; [exact Ht| |exists s; apply ins_insert; tauto]); apply IH.
      + apply (wfs_get _ _ _ Ht E).
      + apply wf_eq. split; constructor.
  Qed.
  Lemma wf_delete s : forall t t' r, wf t -> delete_rec eqb t s = Some (t', r) -> wf t' /\ (r = false -> alive t').
  Proof.
    induction s as [|c s IH]; intros t t' r Ht E; cbn [delete_rec] in E.
    - inversion E; subst. split; [apply wf_eq; apply wf_children, Ht|discriminate].
    - apply wf_children in Ht. destruct (get_child eqb t c) as [w|] eqn:Ew; [|discriminate]. destruct (delete_rec eqb w s) as [[w' r']|] eqn:Ed; [|discriminate].
      destruct (wfs_get _ _ _ Ht Ew) as [W1 W2]. destruct (IH w w' r' W1 Ed) as [I1 I2].
      assert (SETA : alive w' -> forall b, alive (TN b (dset (t_children t) c w'))).
      { intros [x Hx] b. exists (c :: x). unfold ins. cbn [is_inserted]. unfold get_child. cbn [t_children]. rewrite (dget_dset eqb ES). destruct (ES c c); [exact Hx|congruence]. }
      destruct (r' && match t_children w' with [] => true | _ => false end) eqn:R; inversion E; subst.
      + apply andb_prop in R. destruct R as [-> R]. split.
        * apply wf_eq. replace (remove_child eqb (dset (t_children t) c w') c) with (remove_child eqb (dset (t_children t) c w) c).
          2:{ clear - DE. induction (t_children t) as [|[k v] ch IH]; cbn [DsfModel.dset remove_child filter fst]; [destruct (ES c c); [reflexivity|congruence]|].
              destruct (ES c k) as [->|]; cbn [filter fst]; [destruct (ES k k); [reflexivity|congruence]|]. fold (remove_child eqb (dset ch c w) c) (remove_child eqb (dset ch c w') c). rewrite IH. reflexivity. }
          apply wfs_remove. apply wfs_set; auto.
        * intros H. exists []. unfold ins. cbn [is_inserted t_term]. destruct (t_term t); [reflexivity|discriminate].
      + assert (AL : alive w').
        { destruct r'; [|apply I2; reflexivity]. cbn [andb] in R. destruct w' as [b' [|[k v] ch']]; [discriminate|]. apply wf_eq in I1. destruct I1 as [_ F]. inversion F as [|? ? [_ [x Hx]] _]; subst.
          exists (k :: x). unfold ins. cbn [is_inserted]. unfold get_child. cbn [t_children DsfModel.dget]. destruct (ES k k); [exact Hx|congruence]. }
        split; [apply wf_eq, wfs_set; auto|]. intros _. apply SETA, AL.
  Qed.
  Lemma present_spec s : forall t, wf t -> (presentb t s = true <-> s = [] \/ exists x, ins t (s ++ x)).
  Proof.
    unfold ins. induction s as [|c s IH]; intros t Ht; cbn [is_present app is_inserted]; [tauto|].
    apply wf_children in Ht. destruct (get_child eqb t c) as [w|] eqn:E.
    - destruct (wfs_get _ _ _ Ht E) as [W1 [x W2]]. rewrite (IH w W1). split; [|intros [H|H]; [discriminate|right; exact H]].
      intros [->|H]; right; [exists x; exact W2|exact H].
    - split; [discriminate|]. intros [H|[x H]]; discriminate.
  Qed.

  (** all strings below a node *)
  Fixpoint words (t : trie A) : list (list A) :=
    let 'TN b ch := t in (if b then [[]] else []) ++ flat_map (fun x => map (cons (fst x)) (words (snd x))) ch.
  Definition cwords (ch : list (A * trie A)) : list (list A) := flat_map (fun x => map (cons (fst x)) (words (snd x))) ch.
  Lemma words_in : forall t, wf t -> forall s, In s (words t) <-> ins t s.
  Proof.
    unfold ins. induction t as [b ch IH] using trie_ind'. intros Ht s. apply wf_eq in Ht. destruct Ht as [N F]. cbn [words]. rewrite in_app_iff, in_flat_map. destruct s as [|a s]; cbn [is_inserted t_term].
    - split; [intros [H|(x & _ & H)]; [destruct b; [reflexivity|destruct H]|]|intros ->; left; left; reflexivity]. apply in_map_iff in H. destruct H as (y & H & _). discriminate.
    - unfold get_child. cbn [t_children]. split.
      + intros [H|(x & Hx & H)]; [destruct b; [destruct H as [H|[]]; discriminate|destruct H]|]. apply in_map_iff in H. destruct H as (y & H & Hy). inversion H; subst.
        destruct x as [k w]. cbn [fst snd] in *. rewrite (In_dget ch k w N Hx). rewrite Forall_forall in IH, F. apply (IH _ Hx); [apply (F _ Hx)|exact Hy].
      + intros H. right. destruct (dget ch a) as [w|] eqn:E; [|discriminate]. apply dget_In in E. exists (a, w). split; [exact E|]. apply in_map. rewrite Forall_forall in IH, F.
        apply (IH _ E); [apply (F _ E)|exact H].
  Qed.
  Lemma flat_nodup (ch : list (A * trie A)) : NoDup (map fst ch) -> Forall (fun x => NoDup (words (snd x))) ch -> NoDup (cwords ch).
  Proof.
    unfold cwords. induction ch as [|[k w] ch IH]; intros N F; cbn [flat_map]; [constructor|]. inversion N; inversion F; subst. cbn [fst snd] in *.
    assert (G : forall (l1 l2 : list (list A)), NoDup l1 -> NoDup l2 -> (forall z, In z l1 -> ~ In z l2) -> NoDup (l1 ++ l2)).
    { induction l1 as [|z l1 IHl]; intros l2 N1 N2 D; [exact N2|]. inversion N1; subst. cbn [app]. constructor; [rewrite in_app_iff; intros [Hz|Hz]; [contradiction|apply (D z); [left; reflexivity|exact Hz]]|].
      apply IHl; auto. intros u Hu. apply D. right. exact Hu. }
    apply G.
    - clear - H5. induction H5 as [|z l Hz N IH]; cbn [map]; constructor; [|exact IH]. intros H. apply in_map_iff in H. destruct H as (u & E & Hu). inversion E; subst. contradiction.
    - apply IH; assumption.
    - intros z Hz Hz'. apply in_map_iff in Hz. destruct Hz as (u & <- & _). apply in_flat_map in Hz'. destruct Hz' as ([k' w'] & Hx & Hu). apply in_map_iff in Hu. destruct Hu as (v & E & _).
      cbn [fst] in E. inversion E; subst. apply H1. apply in_map_iff. exists (k, w'). auto.
  Qed.
  Lemma words_nodup : forall t, wf t -> NoDup (words t).
  Proof.
    induction t as [b ch IH] using trie_ind'. intros Ht. apply wf_eq in Ht. destruct Ht as [N F]. cbn [words]. fold (cwords ch).
    assert (C : NoDup (cwords ch)). { apply flat_nodup; [exact N|]. rewrite Forall_forall in *. intros x Hx. apply (IH _ Hx), (F _ Hx). }
    destruct b; cbn [app]; [|exact C]. constructor; [|exact C]. intros H. apply in_flat_map in H. destruct H as (x & _ & H). apply in_map_iff in H. destruct H as (y & E & _). discriminate.
  Qed.

  (** the strings a stack entry stands for *)
  Definition ent (e : A * trie A * list A) : list (list A) := let '(c, w, p) := e in map (fun s => p ++ c :: s) (words w).
  Definition esize (st : list (A * trie A * list A)) : nat := fold_right (fun e n => (t_size (snd (fst e)) + n)%nat) O st.
  Lemma esize_app a b : esize (a ++ b) = (esize a + esize b)%nat.
  Proof. induction a as [|e a IH]; [reflexivity|]. cbn [app esize fold_right]. unfold esize in *. rewrite IH. lia. Qed.
  Lemma esize_rev a : esize (rev a) = esize a.
  Proof. induction a as [|e a IH]; [reflexivity|]. cbn [rev]. rewrite esize_app, IH. unfold esize. cbn [fold_right]. lia. Qed.
  Lemma flat_map_perm {X Y} (f : X -> list Y) a b : Permutation a b -> Permutation (flat_map f a) (flat_map f b).
  Proof.
    induction 1; cbn [flat_map]; [constructor|apply Permutation_app_head; assumption| |etransitivity; eassumption].
    rewrite !app_assoc. apply Permutation_app_tail, Permutation_app_comm.
  Qed.
  Lemma collect_ok p c w acc : exists l, collect p c w acc = Ret (acc ++ l) /\ Permutation l (map (fun s => p ++ c :: s) (words w)).
  Proof.
    unfold collect.
    assert (G : forall fuel st acc, (esize st < fuel)%nat -> exists l, while_loop fuel (fun '(stack, strings) =>
      match stack with
      | [] => Ret (Break strings)
      | (c, walk, curr_prefix) :: stack =>
        let strings := if t_term walk then strings ++ [curr_prefix ++ [c]] else strings in
        Ret (Next (rev (map (fun x : A * trie A => (fst x, snd x, curr_prefix ++ [c])) (t_children walk)) ++ stack, strings))
      end) (st, acc) = Ret (acc ++ l) /\ Permutation l (flat_map ent st)).
    { induction fuel as [|f IH]; intros st ac Hf; [lia|]. cbn [while_loop]. destruct st as [|[[c0 [b ch]] p0] st].
      - exists []. rewrite app_nil_r. split; [reflexivity|constructor].
      - cbn [t_term t_children]. destruct (IH (rev (map (fun x : A * trie A => (fst x, snd x, p0 ++ [c0])) ch) ++ st) (if b then ac ++ [p0 ++ [c0]] else ac)) as (l & E & Pl).
        + rewrite esize_app, esize_rev. cbn [esize fold_right fst snd t_size] in Hf. fold (esize st) in Hf.
          assert (esize (map (fun x : A * trie A => (fst x, snd x, p0 ++ [c0])) ch) = fold_right (fun x n => (t_size (snd x) + n)%nat) O ch).
          { clear. induction ch as [|x ch IH]; [reflexivity|]. cbn [map esize fold_right fst snd]. unfold esize in IH. rewrite IH. reflexivity. }
          lia.
        + exists ((if b then [p0 ++ [c0]] else []) ++ l). split; [etransitivity; [exact E|]; destruct b; cbn [app]; [rewrite <- app_assoc; reflexivity|reflexivity]|].
          cbn [flat_map ent words]. rewrite map_app, <- app_assoc.
          replace (map (fun s => p0 ++ c0 :: s) (if b then [[]] else [])) with (if b then [p0 ++ [c0]] else []) by (destruct b; reflexivity).
          apply Permutation_app_head. rewrite Pl, flat_map_app. apply Permutation_app_tail.
          rewrite (flat_map_perm ent _ _ (Permutation_sym (Permutation_rev _))).
          assert (EE : flat_map ent (map (fun x : A * trie A => (fst x, snd x, p0 ++ [c0])) ch) = map (fun s => p0 ++ c0 :: s) (flat_map (fun x => map (cons (fst x)) (words (snd x))) ch)); [|rewrite EE; reflexivity].
          clear. induction ch as [|[k w] ch IH]; [reflexivity|]. cbn [map flat_map ent fst snd]. rewrite IH, map_app, map_map. f_equal. apply map_ext. intros s. rewrite <- app_assoc. reflexivity. }
    destruct (G (S (t_size w)) [(c, w, p)] acc) as (l & E & Pl); [cbn; lia|]. exists l. split; [exact E|]. rewrite Pl. cbn [flat_map ent]. rewrite app_nil_r. reflexivity.
  Qed.
  Lemma collect_all p ch : forall acc, exists l, forM ch (fun x strings => collect p (fst x) (snd x) strings) acc = Ret (acc ++ l) /\ Permutation l (map (app p) (cwords ch)).
  Proof.
    unfold cwords. induction ch as [|[k w] ch IH]; intros acc; cbn [forM fst snd flat_map].
    - exists []. rewrite app_nil_r. split; [reflexivity|constructor].
    - destruct (collect_ok p k w acc) as (l1 & -> & P1). cbn [bind]. destruct (IH (acc ++ l1)) as (l2 & -> & P2). exists (l1 ++ l2). rewrite app_assoc. split; [reflexivity|].
      rewrite map_app, P1, P2. rewrite map_map. reflexivity.
  Qed.
  Lemma walk_ins p : forall t w, walk_to eqb t p = Some w -> forall x, ins t (p ++ x) <-> ins w x.
  Proof.
    unfold ins. induction p as [|c p IH]; intros t w E x; cbn [walk_to] in E; [inversion E; reflexivity|]. cbn [app is_inserted]. destruct (get_child eqb t c); [apply IH, E|discriminate].
  Qed.
  Lemma walk_none p : forall t, walk_to eqb t p = None -> forall x, ~ ins t (p ++ x).
  Proof.
    unfold ins. induction p as [|c p IH]; intros t E x; cbn [walk_to] in E; [discriminate|]. cbn [app is_inserted]. destruct (get_child eqb t c); [apply IH, E|discriminate].
  Qed.
  Lemma walk_wf p : forall t w, wf t -> walk_to eqb t p = Some w -> wf w.
  Proof.
    induction p as [|c p IH]; intros t w Ht E; cbn [walk_to] in E; [inversion E; subst; exact Ht|]. apply wf_children in Ht. destruct (get_child eqb t c) as [v|] eqn:Ev; [|discriminate].
    apply (IH v); [apply (wfs_get _ _ _ Ht Ev)|exact E].
  Qed.
  Lemma swp_ok t p : wf t -> exists l, strings_with_prefix eqb t p = Ret ((if insertedb t p then [match rev p with [] => None | c :: _ => Some [c] end] else []) ++ map Some l) /\
    NoDup l /\ forall s, In s l <-> ins t s /\ s <> p /\ exists x, s = p ++ x.
  Proof.
    intros Ht. unfold strings_with_prefix. destruct (walk_to eqb t p) as [w|] eqn:E.
    - destruct (collect_all p (t_children w) []) as (l & El & Pl). rewrite El. cbn [bind app]. exists l.
      assert (TI : t_term w = insertedb t p). { pose proof (walk_ins p t w E []) as H. rewrite app_nil_r in H. unfold ins in H. cbn [is_inserted] in H. destruct (t_term w), (insertedb t p); intuition congruence. }
      rewrite <- TI. split; [reflexivity|]. pose proof (walk_wf p t w Ht E) as Hw. destruct w as [b ch]. cbn [t_children] in *.
      assert (NC : NoDup (cwords ch)). { pose proof (words_nodup _ Hw) as H. cbn [words] in H. destruct b; [inversion H; assumption|exact H]. }
      assert (IC : forall s, In s (cwords ch) <-> s <> [] /\ ins (TN b ch) s).
      { intros s. rewrite <- (words_in _ Hw). cbn [words]. fold (cwords ch). rewrite in_app_iff. split.
        - intros H. split; [|right; exact H]. intros ->. apply in_flat_map in H. destruct H as (x & _ & H). apply in_map_iff in H. destruct H as (y & H & _). discriminate.
        - intros [H1 [H|H]]; [|exact H]. destruct b; [destruct H as [<- | []]; contradiction|destruct H]. }
      split.
      + apply (Permutation_NoDup (Permutation_sym Pl)). clear - NC. induction NC as [|z l Hz N IH]; cbn [map]; constructor; [|exact IH]. intros H. apply in_map_iff in H. destruct H as (u & E & Hu). apply app_inv_head in E. subst. contradiction.
      + intros s. split.
        * intros H. apply (Permutation_in _ Pl) in H. apply in_map_iff in H. destruct H as (u & <- & Hu). apply IC in Hu. destruct Hu as [H1 H2]. split; [apply (walk_ins p t _ E), H2|]. split; [|eauto].
          intros EE. apply H1. apply (app_inv_head p). rewrite EE, app_nil_r. reflexivity.
        * intros (H1 & H2 & x & ->). apply (Permutation_in _ (Permutation_sym Pl)). apply in_map. apply IC. split; [intros ->; rewrite app_nil_r in H2; congruence|apply (walk_ins p t _ E), H1].
    - exists []. pose proof (walk_none p t E) as H. assert (insertedb t p = false) as ->. { destruct (insertedb t p) eqn:EE; [|reflexivity]. exfalso. apply (H []). rewrite app_nil_r. exact EE. }
      split; [reflexivity|]. split; [constructor|]. intros s. split; [intros []|]. intros (H1 & _ & x & ->). apply (H x H1).
  Qed.

  (** histories *)
  Definition trun (ops : list (trie_op A)) : trie A := trie_run eqb ops trie_new.
  Lemma ldec (x y : list A) : {x = y} + {x <> y}. Proof. apply list_eq_dec, adec. Qed.
  Lemma stored_snoc (ops : list (trie_op A)) o s : stored (ops ++ [o]) s <-> (match o with TInsert x => s = x \/ stored ops s | TDelete x => stored ops s /\ s <> x end).
  Proof.
    unfold stored. split.
    - intros (pre & post & E & N). destruct post as [|y post'] using rev_ind.
      + apply app_inj_tail in E. destruct E as [-> ->]. tauto.
      + clear IHpost'. rewrite app_comm_cons, app_assoc in E. apply app_inj_tail in E. destruct E as [-> ->]. rewrite in_app_iff in N. cbn [In] in N.
        destruct y as [x|x]; [right|split; [|intros ->; tauto]]; exists pre, post'; split; [reflexivity|tauto|reflexivity|tauto].
    - destruct o as [x|x].
      + intros [->|(pre & post & -> & N)]; [exists ops, []; split; [reflexivity|intros []]|]. exists pre, (post ++ [TInsert x]). rewrite <- app_assoc. split; [reflexivity|].
        rewrite in_app_iff. intros [H|[H|[]]]; [contradiction|discriminate].
      + intros [(pre & post & -> & N) NE]. exists pre, (post ++ [TDelete x]). rewrite <- app_assoc. split; [reflexivity|]. rewrite in_app_iff. intros [H|[H|[]]]; [contradiction|congruence].
  Qed.
  Lemma run_ok ops : wf (trun ops) /\ forall s, ins (trun ops) s <-> stored ops s.
  Proof.
    induction ops as [|o ops [IW II]] using rev_ind.
    - split; [apply wf_eq; split; constructor|]. intros s. split.
      + intros H. unfold ins, trun in H. cbn in H. destruct s; discriminate.
      + intros (pre & post & E & _). destruct pre; discriminate.
    - assert (E : trun (ops ++ [o]) = match o with TInsert s => trie_insert eqb (trun ops) s | TDelete s => fst (trie_delete eqb (trun ops) s) end) by (unfold trun, trie_run; rewrite fold_left_app; reflexivity).
      rewrite E. clear E. destruct o as [x|x].
      + split; [apply wf_insert, IW|]. intros s. rewrite ins_insert, II, stored_snoc. reflexivity.
      + unfold trie_delete. pose proof (delete_spec x (trun ops)) as D. destruct (delete_rec eqb (trun ops) x) as [[t' r]|] eqn:Ed; cbn [fst].
        * destruct D as (D1 & D2 & D3). split; [apply (wf_delete x (trun ops) t' r IW Ed)|]. intros s. rewrite D3, II, stored_snoc. reflexivity.
        * split; [exact IW|]. intros s. rewrite II, stored_snoc. split; [|tauto]. intros H. split; [exact H|]. intros ->. apply II in H.
          enough (presentb (trun ops) x = true) by congruence. apply present_spec; [exact IW|]. right. exists []. rewrite app_nil_r. exact H.
  Qed.
End T.
