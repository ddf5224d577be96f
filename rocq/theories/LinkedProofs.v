(** Specifications and proofs for LinkedModel. *)
From Verif Require Import Base LinkedModel ArraysProofs.

(** ** chains of links: [f a] is the outgoing link of cell [a] (None: no such cell) *)
Fixpoint chain (f : nat -> option (option nat)) (p : option nat) (ps : list nat) (q : option nat) : Prop :=
  match ps with
  | [] => p = q
  | a :: ps' => p = Some a /\ exists r, f a = Some r /\ chain f r ps' q
  end.

Definition hd_or (l : list nat) (q : option nat) : option nat := match l with [] => q | a :: _ => Some a end.
Definition last_error {V} (l : list V) : option V := hd_error (rev l).

Lemma last_error_snoc V (l : list V) a : last_error (l ++ [a]) = Some a.
Proof. unfold last_error. rewrite rev_app_distr. reflexivity. Qed.
Lemma last_error_nil V : last_error (@nil V) = None. Proof. reflexivity. Qed.
Lemma last_error_app V (l1 l2 : list V) : l2 <> [] -> last_error (l1 ++ l2) = last_error l2.
Proof.
  intros H. destruct (exists_last H) as (l & a & ->). rewrite app_assoc, !last_error_snoc. reflexivity.
Qed.
Lemma last_error_cons V (a : V) l : l <> [] -> last_error (a :: l) = last_error l.
Proof. intros H. apply (last_error_app V [a] l H). Qed.
Lemma last_error_in V (l : list V) a : last_error l = Some a -> exists l', l = l' ++ [a].
Proof.
  destruct l as [|x l] using rev_ind; [discriminate|]. rewrite last_error_snoc. intros E; inversion E; subst. eauto.
Qed.
Lemma list_snoc_case V (l : list V) : l = [] \/ exists l' a, l = l' ++ [a].
Proof. destruct l using rev_ind; eauto. Qed.

Lemma chain_hd f p ps q : chain f p ps q -> p = hd_or ps q.
Proof. destruct ps; simpl; [auto|intros [-> _]; reflexivity]. Qed.
Lemma chain_app f p l1 l2 q : chain f p (l1 ++ l2) q <-> chain f p l1 (hd_or l2 q) /\ chain f (hd_or l2 q) l2 q.
Proof.
  revert p; induction l1 as [|a l1 IH]; intros p; simpl.
  - split.
    + intros H. pose proof (chain_hd _ _ _ _ H) as E. rewrite <- E. auto.
    + intros [-> H]; exact H.
  - split.
    + intros [-> (r & Hr & H)]. apply IH in H. destruct H. split; [split; [reflexivity|exists r; auto]|assumption].
    + intros [[-> (r & Hr & H)] H2]. split; [reflexivity|]. exists r. split; [exact Hr|]. apply IH; auto.
Qed.
Lemma chain_ext f g p ps q : chain f p ps q -> (forall a, In a ps -> g a = f a) -> chain g p ps q.
Proof.
  revert p; induction ps as [|a ps IH]; intros p H E; simpl in *; [exact H|].
  destruct H as [-> (r & Hr & H)]. split; [reflexivity|]. exists r. rewrite E by auto. split; [exact Hr|]. apply IH; auto.
Qed.
Lemma chain_redirect f g p l a q q' : chain f p (l ++ [a]) q -> (forall b, In b l -> g b = f b) -> g a = Some q' ->
  chain g p (l ++ [a]) q'.
Proof.
  intros H E Ea. apply chain_app in H. destruct H as [H _]. apply chain_app. split.
  - eapply chain_ext; eauto.
  - simpl. split; [reflexivity|]. eauto.
Qed.
Lemma chain_def f p ps q a : chain f p ps q -> In a ps -> exists r, f a = Some r.
Proof.
  revert p; induction ps as [|b ps IH]; intros p H Hi; simpl in *; [contradiction|].
  destruct H as [-> (r & Hr & H)], Hi as [->|Hi]; eauto.
Qed.

Lemma NoDup_app_l V (l1 l2 : list V) : NoDup (l1 ++ l2) -> NoDup l1.
Proof. induction l1; simpl; intros H; constructor; inversion H; subst; [rewrite in_app_iff in *; tauto|auto]. Qed.
Lemma NoDup_app_r V (l1 l2 : list V) : NoDup (l1 ++ l2) -> NoDup l2.
Proof. induction l1; simpl; intros H; [assumption|inversion H; auto]. Qed.
Lemma NoDup_app_disj V (l1 l2 : list V) x : NoDup (l1 ++ l2) -> In x l1 -> In x l2 -> False.
Proof.
  induction l1; simpl; intros H H1 H2; [assumption|]. inversion H; subst. destruct H1 as [->|H1].
  - apply H4. apply in_or_app; auto.
  - auto.
Qed.

(** a new node between [l1] and [l2] *)
Lemma chain_insert f g p l1 l2 q new :
  chain f p (l1 ++ l2) q -> NoDup (l1 ++ l2) ->
  g new = Some (hd_or l2 q) ->
  (forall b, In b (l1 ++ l2) -> last_error l1 <> Some b -> g b = f b) ->
  (forall pr, last_error l1 = Some pr -> g pr = Some (Some new)) ->
  chain g (hd_or l1 (Some new)) (l1 ++ new :: l2) q.
Proof.
  intros H ND Hn Ho Hp.
  assert (H2 : chain g (hd_or l2 q) l2 q).
  { apply chain_app in H. destruct H as [_ H]. eapply chain_ext; [exact H|]. intros b Hb. apply Ho; [apply in_or_app; auto|].
    intros E. apply last_error_in in E. destruct E as [l' ->].
    eapply NoDup_app_disj; [exact ND| |exact Hb]. apply in_or_app; right; left; reflexivity. }
  apply chain_app. split.
  - destruct (list_snoc_case _ l1) as [->|(l' & a & ->)]; [simpl; reflexivity|].
    pose proof (proj1 (chain_app _ _ _ _ _) H) as [H1 _].
    rewrite (chain_hd _ _ _ _ H1) in H1.
    replace (hd_or (l' ++ [a]) (hd_or l2 q)) with (hd_or (l' ++ [a]) (Some new)) in H1 by (destruct l'; reflexivity).
    eapply chain_redirect; [exact H1| |apply Hp; apply last_error_snoc].
    intros b Hb. apply Ho; [rewrite !in_app_iff; auto|]. rewrite last_error_snoc. intros E; inversion E; subst.
    apply NoDup_app_l in ND. apply (NoDup_app_disj _ _ _ b ND); simpl; auto.
  - simpl. split; [reflexivity|]. eauto.
Qed.

(** unlinking the node between [l1] and [l2] *)
Lemma chain_remove f g p l1 a l2 q :
  chain f p (l1 ++ a :: l2) q -> NoDup (l1 ++ a :: l2) ->
  (forall b, In b (l1 ++ l2) -> last_error l1 <> Some b -> g b = f b) ->
  (forall pr, last_error l1 = Some pr -> g pr = Some (hd_or l2 q)) ->
  f a = Some (hd_or l2 q) /\ chain g (hd_or l1 (hd_or l2 q)) (l1 ++ l2) q.
Proof.
  intros H ND Ho Hp. apply chain_app in H. destruct H as [H1 H2]. simpl in H2. destruct H2 as [_ (r & Hr & H2)].
  pose proof (chain_hd _ _ _ _ H2) as Er. rewrite Er in *. split; [exact Hr|].
  apply chain_app. split.
  - destruct (list_snoc_case _ l1) as [->|(l' & b & ->)]; [simpl; reflexivity|].
    rewrite (chain_hd _ _ _ _ H1) in H1.
    replace (hd_or (l' ++ [b]) (hd_or (a :: l2) q)) with (hd_or (l' ++ [b]) (hd_or l2 q)) in H1 by (destruct l'; reflexivity).
    eapply chain_redirect; [exact H1| |apply Hp; apply last_error_snoc].
    intros c Hc. apply Ho; [rewrite !in_app_iff; auto|]. rewrite last_error_snoc. intros E; inversion E; subst.
    apply NoDup_app_l in ND. apply (NoDup_app_disj _ _ _ c ND); simpl; auto.
  - eapply chain_ext; [exact H2|]. intros b Hb. apply Ho; [apply in_or_app; auto|].
    intros E. apply last_error_in in E. destruct E as [l' ->].
    eapply NoDup_app_disj; [exact ND| |right; exact Hb]. apply in_or_app; right; left; reflexivity.
Qed.

(** ** heap views *)
Section Views.
  Context {K : Type}.
  Notation heap := (list (cell K)).
  Definition nx (h : heap) (a : nat) : option (option nat) := option_map c_next (nth_error h a).
  Definition pv (h : heap) (a : nat) : option (option nat) := option_map c_prev (nth_error h a).
  Definition ky (h : heap) (a : nat) : option K := option_map c_key (nth_error h a).

  Lemma nth_set_next h a q b : nth_error (set_next h a q) b =
    if (a =? b)%nat then option_map (fun c : cell K => Cell (c_key c) q (c_prev c)) (nth_error h b) else nth_error h b.
  Proof.
    unfold set_next. destruct (Nat.eqb_spec a b) as [->|Hne].
    - destruct (nth_error h b) eqn:E; simpl; [|exact E].
      rewrite nth_error_upd, Nat.eqb_refl. assert (b < length h)%nat by (apply nth_error_Some; congruence).
      destruct (Nat.ltb_spec b (length h)); [reflexivity|lia].
    - destruct (nth_error h a); [|reflexivity]. rewrite nth_error_upd. destruct (Nat.eqb_spec a b); [congruence|reflexivity].
  Qed.
  Lemma nth_set_prev h a q b : nth_error (set_prev h a q) b =
    if (a =? b)%nat then option_map (fun c : cell K => Cell (c_key c) (c_next c) q) (nth_error h b) else nth_error h b.
  Proof.
    unfold set_prev. destruct (Nat.eqb_spec a b) as [->|Hne].
    - destruct (nth_error h b) eqn:E; simpl; [|exact E].
      rewrite nth_error_upd, Nat.eqb_refl. assert (b < length h)%nat by (apply nth_error_Some; congruence).
      destruct (Nat.ltb_spec b (length h)); [reflexivity|lia].
    - destruct (nth_error h a); [|reflexivity]. rewrite nth_error_upd. destruct (Nat.eqb_spec a b); [congruence|reflexivity].
  Qed.
  Lemma nx_set_next h a q b : nx (set_next h a q) b = if (a =? b)%nat then option_map (fun _ => q) (nx h b) else nx h b.
  Proof. unfold nx. rewrite nth_set_next. destruct (_ =? _)%nat; [|reflexivity]. destruct (nth_error h b); reflexivity. Qed.
  Lemma nx_set_prev h a q b : nx (set_prev h a q) b = nx h b.
  Proof. unfold nx. rewrite nth_set_prev. destruct (_ =? _)%nat; [|reflexivity]. destruct (nth_error h b); reflexivity. Qed.
  Lemma pv_set_prev h a q b : pv (set_prev h a q) b = if (a =? b)%nat then option_map (fun _ => q) (pv h b) else pv h b.
  Proof. unfold pv. rewrite nth_set_prev. destruct (_ =? _)%nat; [|reflexivity]. destruct (nth_error h b); reflexivity. Qed.
  Lemma pv_set_next h a q b : pv (set_next h a q) b = pv h b.
  Proof. unfold pv. rewrite nth_set_next. destruct (_ =? _)%nat; [|reflexivity]. destruct (nth_error h b); reflexivity. Qed.
  Lemma ky_set_next h a q b : ky (set_next h a q) b = ky h b.
  Proof. unfold ky. rewrite nth_set_next. destruct (_ =? _)%nat; [|reflexivity]. destruct (nth_error h b); reflexivity. Qed.
  Lemma ky_set_prev h a q b : ky (set_prev h a q) b = ky h b.
  Proof. unfold ky. rewrite nth_set_prev. destruct (_ =? _)%nat; [|reflexivity]. destruct (nth_error h b); reflexivity. Qed.
  Lemma nx_new h c b : nx (h ++ [c]) b = if (length h =? b)%nat then Some (c_next c) else nx h b.
  Proof.
    unfold nx. destruct (Nat.eqb_spec (length h) b) as [<-|Hne].
    - rewrite nth_error_app2, Nat.sub_diag by lia. reflexivity.
    - destruct (Nat.lt_ge_cases b (length h)); [rewrite nth_error_app1 by lia; reflexivity|].
      rewrite (proj2 (nth_error_None (h ++ [c]) b)) by (rewrite app_length; simpl; lia).
      rewrite (proj2 (nth_error_None h b)) by lia. reflexivity.
  Qed.
  Lemma pv_new h c b : pv (h ++ [c]) b = if (length h =? b)%nat then Some (c_prev c) else pv h b.
  Proof.
    unfold pv. destruct (Nat.eqb_spec (length h) b) as [<-|Hne].
    - rewrite nth_error_app2, Nat.sub_diag by lia. reflexivity.
    - destruct (Nat.lt_ge_cases b (length h)); [rewrite nth_error_app1 by lia; reflexivity|].
      rewrite (proj2 (nth_error_None (h ++ [c]) b)) by (rewrite app_length; simpl; lia).
      rewrite (proj2 (nth_error_None h b)) by lia. reflexivity.
  Qed.
  Lemma ky_new h c b : ky (h ++ [c]) b = if (length h =? b)%nat then Some (c_key c) else ky h b.
  Proof.
    unfold ky. destruct (Nat.eqb_spec (length h) b) as [<-|Hne].
    - rewrite nth_error_app2, Nat.sub_diag by lia. reflexivity.
    - destruct (Nat.lt_ge_cases b (length h)); [rewrite nth_error_app1 by lia; reflexivity|].
      rewrite (proj2 (nth_error_None (h ++ [c]) b)) by (rewrite app_length; simpl; lia).
      rewrite (proj2 (nth_error_None h b)) by lia. reflexivity.
  Qed.
  Lemma ky_lt h a k : ky h a = Some k -> (a < length h)%nat.
  Proof. unfold ky. intros H. apply nth_error_Some. destruct (nth_error h a); [congruence|discriminate]. Qed.
  Lemma nx_lt h a k : nx h a = Some k -> (a < length h)%nat.
  Proof. unfold nx. intros H. apply nth_error_Some. destruct (nth_error h a); [congruence|discriminate]. Qed.
  Lemma deref_some (h : heap) a c : nth_error h a = Some c -> deref h (Some a) = Ret c.
  Proof. intros E. simpl. rewrite E. reflexivity. Qed.
  Lemma nx_cell (h : heap) a r : nx h a = Some r -> exists c, nth_error h a = Some c /\ c_next c = r.
  Proof. unfold nx. destruct (nth_error h a) as [c|]; simpl; intros E; inversion E. eauto. Qed.
  Lemma len_set_next (h : heap) a q : length (set_next h a q) = length h.
  Proof. unfold set_next. destruct (nth_error h a); [apply length_upd|reflexivity]. Qed.
  Lemma len_set_prev (h : heap) a q : length (set_prev h a q) = length h.
  Proof. unfold set_prev. destruct (nth_error h a); [apply length_upd|reflexivity]. Qed.

  Lemma walk_loop_spec (h : heap) q : forall l1 l2 start fuel c pr, chain (nx h) start (l1 ++ l2) q -> (length l1 < fuel)%nat ->
    while_loop fuel (fun '(counter, prev, cur) =>
      if counter =? c + len l1 then Ret (Break (prev, cur))
      else c <- deref h cur ;; Ret (Next (counter + 1, cur, c_next c))) (c, pr, start)
    = Ret (match last_error l1 with Some a => Some a | None => pr end, hd_or l2 q).
  Proof.
    induction l1 as [|a l1 IH]; intros l2 start fuel c pr H Hf; destruct fuel as [|fuel]; simpl in Hf; try lia.
    - cbn [while_loop]. rewrite len_nil, Z.add_0_r, Z.eqb_refl. simpl. rewrite (chain_hd _ _ _ _ H). reflexivity.
    - cbn [while_loop]. rewrite len_cons. destruct (Z.eqb_spec c (c + (len l1 + 1))); [pose proof (len_nonneg _ l1); lia|].
      simpl in H. destruct H as [-> (r & Hr & H)]. destruct (nx_cell _ _ _ Hr) as (cl & Ec & En).
      rewrite (deref_some _ _ _ Ec). cbn [bind]. rewrite En.
      replace (c + (len l1 + 1)) with (c + 1 + len l1) by lia.
      rewrite (IH l2 r fuel (c + 1) (Some a) H ltac:(lia)). f_equal. f_equal.
      destruct (list_snoc_case _ l1) as [->|(l' & b & ->)]; [reflexivity|].
      rewrite last_error_cons by (destruct l'; discriminate). rewrite last_error_snoc. reflexivity.
  Qed.
  Lemma walk_to_spec (h : heap) q l1 l2 start fuel : chain (nx h) start (l1 ++ l2) q -> (length l1 < fuel)%nat ->
    walk_to fuel h start (len l1) = Ret (last_error l1, hd_or l2 q).
  Proof.
    intros H Hf. unfold walk_to. pose proof (walk_loop_spec h q l1 l2 start fuel 0 None H Hf) as E.
    rewrite Z.add_0_l in E. rewrite E. destruct (last_error l1); reflexivity.
  Qed.
End Views.

Lemma Forall2_imp X Y (R S : X -> Y -> Prop) a b : (forall x y, R x y -> S x y) -> Forall2 R a b -> Forall2 S a b.
Proof. intros H; induction 1; constructor; auto. Qed.
Lemma Forall2_rev X Y (R : X -> Y -> Prop) a b : Forall2 R a b -> Forall2 R (rev a) (rev b).
Proof. induction 1; simpl; [constructor|]. apply Forall2_app; auto. Qed.
Lemma Forall2_split_l X Y (R : X -> Y -> Prop) a b n : Forall2 R a b -> Forall2 R (firstn n a) (firstn n b) /\ Forall2 R (skipn n a) (skipn n b).
Proof.
  intros H. revert n; induction H; intros n; destruct n; simpl; split; auto; try constructor; auto;
  try apply IHForall2.
Qed.

(** ** abstract list machine (the specification of the list operations) *)
Section ListSpec.
  Context {K : Type}.
  (** what a caller sees *)
  Inductive lout := LOk | LKey (k : K) | LErr (e : exn) | LFuel.
  Inductive lop :=
  | LInsertAt (i : Z) (k : K) | LInsertAfter (i : Z) (k : K) | LInsertBefore (i : Z) (k : K) | LExtract (i : Z)
  | LAppend (k : K) | LAppendLeft (k : K) | LPopLeft | LPopRight | LGet (i : Z).

  Definition ins (l : list K) (j : Z) (k : K) : list K := firstn (Z.to_nat j) l ++ k :: skipn (Z.to_nat j) l.
  Definition del (l : list K) (j : Z) : list K := firstn (Z.to_nat j) l ++ skipn (S (Z.to_nat j)) l.

  Definition spec_insert (l : list K) (i : Z) (k : K) : option (list K * lout) :=
    let j := if (len l =? 0) && (i =? -1) then 0 else if i <? 0 then len l + i else i in
    if len l <? j then Some (l, LErr IndexError)
    else if j <? 0 then None
    else Some (ins l j k, LOk).
  Definition spec_extract (l : list K) (i : Z) : option (list K * lout) :=
    let j := if i <? 0 then len l + i else i in
    if len l =? 0 then Some (l, LErr ValueError)
    else if len l <=? j then Some (l, LErr IndexError)
    else if j <? 0 then None
    else match nth_error l (Z.to_nat j) with Some k => Some (del l j, LKey k) | None => None end.
  Definition spec_insert_rel (l : list K) (i d : Z) (k : K) : option (list K * lout) :=
    let j := if i <? 0 then len l + i else i in
    if len l <=? j then Some (l, LErr IndexError)
    else if j <? 0 then None
    else Some (ins l (j + d) k, LOk).
  Definition spec_get (l : list K) (i : Z) : option (list K * lout) :=
    let j := if i <? 0 then len l + i else i in
    if len l <=? j then Some (l, LErr IndexError)
    else if j <? 0 then None
    else match nth_error l (Z.to_nat j) with Some k => Some (l, LKey k) | None => None end.

  (** [None]: the call is outside the contract (an index below -len) *)
  Definition spec_op (l : list K) (o : lop) : option (list K * lout) :=
    match o with
    | LInsertAt i k => spec_insert l i k
    | LInsertAfter i k => spec_insert_rel l i 1 k
    | LInsertBefore i k => spec_insert_rel l i 0 k
    | LExtract i => spec_extract l i
    | LAppend k => Some (l ++ [k], LOk)
    | LAppendLeft k => Some (k :: l, LOk)
    | LPopLeft => spec_extract l 0
    | LPopRight => spec_extract l (-1)
    | LGet i => spec_get l i
    end.

  Fixpoint spec_ops (ops : list lop) (l : list K) : option (list K * list lout) :=
    match ops with
    | [] => Some (l, [])
    | o :: ops' => match spec_op l o with
                   | None => None
                   | Some (l1, r) => match spec_ops ops' l1 with
                                     | None => None
                                     | Some (l2, rs) => Some (l2, r :: rs)
                                     end
                   end
    end.
End ListSpec.
Arguments lop : clear implicits.
Arguments lout : clear implicits.

(** running a history on a concrete list class *)
Section Run.
  Context {K : Type}.
  Record cls := Cls
    { k_insert_at : nat -> ll K -> Z -> K -> ll K * res unit;
      k_insert_after : ll K -> nat -> K -> ll K * res unit;
      k_insert_before : ll K -> nat -> K -> ll K * res unit;
      k_extract : nat -> ll K -> Z -> ll K * res nat }.

  Definition out_unit (r : res unit) : lout K :=
    match r with Ret _ => LOk | Raise e => LErr e | OutOfFuel => LFuel end.
  (** the extracted node is observed through its key *)
  Definition out_node (st : ll K) (r : res nat) : lout K :=
    match r with
    | Ret a => match ky (l_heap st) a with Some k => LKey k | None => LErr AttributeError end
    | Raise e => LErr e | OutOfFuel => LFuel end.
  (** the node argument of insert_after / insert_before is obtained as lst[i] *)
  Definition with_node (fuel : nat) (st : ll K) (i : Z) (k : nat -> ll K * res unit) : ll K * lout K :=
    match ll_getitem fuel st i with
    | Ret (Some a) => let (s, r) := k a in (s, out_unit r)
    | Ret None => (st, LErr AttributeError)
    | Raise e => (st, LErr e)
    | OutOfFuel => (st, LFuel)
    end.
  Definition cls_op (C : cls) (st : ll K) (o : lop K) : ll K * lout K :=
    let fuel := S (S (length (l_heap st))) in
    match o with
    | LInsertAt i k => let (s, r) := k_insert_at C fuel st i k in (s, out_unit r)
    | LInsertAfter i k => with_node fuel st i (fun a => k_insert_after C st a k)
    | LInsertBefore i k => with_node fuel st i (fun a => k_insert_before C st a k)
    | LExtract i => let (s, r) := k_extract C fuel st i in (s, out_node s r)
    | LAppend k => let (s, r) := k_insert_at C fuel st (l_size st) k in (s, out_unit r)
    | LAppendLeft k => let (s, r) := k_insert_at C fuel st 0 k in (s, out_unit r)
    | LPopLeft => let (s, r) := k_extract C fuel st 0 in (s, out_node s r)
    | LPopRight => let (s, r) := k_extract C fuel st (-1) in (s, out_node s r)
    | LGet i => (st, match ll_getitem fuel st i with
                     | Ret (Some a) => match ky (l_heap st) a with Some k => LKey k | None => LErr AttributeError end
                     | Ret None => LErr AttributeError
                     | Raise e => LErr e | OutOfFuel => LFuel end)
    end.
  Fixpoint cls_run (C : cls) (ops : list (lop K)) (st : ll K) : ll K * list (lout K) :=
    match ops with
    | [] => (st, [])
    | o :: ops' => let (s1, r) := cls_op C st o in let (s2, rs) := cls_run C ops' s1 in (s2, r :: rs)
    end.

  Definition no_before : ll K -> nat -> K -> ll K * res unit := fun st _ _ => (st, Raise NotImplementedError).
  Definition SLL : cls := Cls sll_insert_at sll_insert_after no_before sll_extract.
  Definition DLL : cls := Cls dll_insert_at dll_insert_after dll_insert_before dll_extract.
  Definition SCL : cls := Cls scl_insert_at scl_insert_after no_before scl_extract.

  (** ** representation *)
  Record rep (st : ll K) (ps : list nat) (q : option nat) (ks : list K) : Prop :=
    { r_nd : NoDup ps;
      r_fw : chain (nx (l_heap st)) (l_head st) ps q;
      r_tail : l_tail st = last_error ps;
      r_size : l_size st = len ps;
      r_keys : Forall2 (fun a k => ky (l_heap st) a = Some k) ps ks }.

  Lemma rep_lt st ps q ks a : rep st ps q ks -> In a ps -> (a < length (l_heap st))%nat.
  Proof. intros R Hi. destruct (chain_def _ _ _ _ a (r_fw _ _ _ _ R) Hi) as [r E]. eapply nx_lt; eauto. Qed.
  Lemma rep_len st ps q ks : rep st ps q ks -> len ps = len ks.
  Proof. intros R. unfold len. f_equal. eapply Forall2_len. apply (r_keys _ _ _ _ R). Qed.
  Lemma NoDup_bound n : forall l, NoDup l -> (forall a, In a l -> (a < n)%nat) -> (length l <= n)%nat.
  Proof.
    intros l ND H. rewrite <- (seq_length n 0). apply NoDup_incl_length; [exact ND|].
    intros a Ha. apply in_seq. specialize (H a Ha). lia.
  Qed.
  Lemma rep_size_heap st ps q ks : rep st ps q ks -> (length ps <= length (l_heap st))%nat.
  Proof. intros R. apply NoDup_bound; [apply (r_nd _ _ _ _ R)|]. intros a. eapply rep_lt; eauto. Qed.

  Lemma ky_ins (h h' : list (cell K)) new k l1 l2 ks1 ks2 :
    Forall2 (fun a k => ky h a = Some k) l1 ks1 -> Forall2 (fun a k => ky h a = Some k) l2 ks2 ->
    ky h' new = Some k -> (forall a, In a (l1 ++ l2) -> ky h' a = ky h a) ->
    Forall2 (fun a k => ky h' a = Some k) (l1 ++ new :: l2) (ks1 ++ k :: ks2).
  Proof.
    intros H1 H2 Hn He. apply Forall2_app.
    - clear H2. assert (He1 : forall a, In a l1 -> ky h' a = ky h a) by (intros; apply He; apply in_or_app; auto). clear He.
      induction H1; constructor; [rewrite He1 by (left; reflexivity); assumption|]. apply IHForall2. intros; apply He1; right; assumption.
    - constructor; [exact Hn|]. assert (He1 : forall a, In a l2 -> ky h' a = ky h a) by (intros; apply He; apply in_or_app; auto). clear He H1.
      induction H2; constructor; [rewrite He1 by (left; reflexivity); assumption|]. apply IHForall2. intros; apply He1; right; assumption.
  Qed.

  Lemma NoDup_insert (l1 l2 : list nat) n : NoDup (l1 ++ l2) -> ~ In n (l1 ++ l2) -> NoDup (l1 ++ n :: l2).
  Proof. intros H1 H2. apply NoDup_Add with (a := n) (l := l1 ++ l2); [apply Add_app|]. auto. Qed.

  Lemma split_at (ps : list nat) j : 0 <= j <= len ps -> exists l1 l2, ps = l1 ++ l2 /\ len l1 = j /\ l1 = firstn (Z.to_nat j) ps /\ l2 = skipn (Z.to_nat j) ps.
  Proof.
    intros H. exists (firstn (Z.to_nat j) ps), (skipn (Z.to_nat j) ps). rewrite firstn_skipn.
    repeat split. unfold len in *. rewrite firstn_length. lia.
  Qed.
  Lemma split_keys st l1 l2 q ks j : rep st (l1 ++ l2) q ks -> len l1 = j ->
    exists ks1 ks2, ks = ks1 ++ ks2 /\ len ks1 = j /\ ks1 = firstn (Z.to_nat j) ks /\ ks2 = skipn (Z.to_nat j) ks /\
      Forall2 (fun a k => ky (l_heap st) a = Some k) l1 ks1 /\ Forall2 (fun a k => ky (l_heap st) a = Some k) l2 ks2.
  Proof.
    intros R Ej. pose proof (rep_len _ _ _ _ R) as El. rewrite len_app in El.
    pose proof (Forall2_split_l _ _ _ _ _ (Z.to_nat j) (r_keys _ _ _ _ R)) as [F1 F2].
    exists (firstn (Z.to_nat j) ks), (skipn (Z.to_nat j) ks). rewrite firstn_skipn.
    assert (Ej' : Z.to_nat j = length l1) by (unfold len in Ej; lia). rewrite Ej' in *.
    rewrite firstn_app, Nat.sub_diag, firstn_all, firstn_O, app_nil_r in F1.
    rewrite skipn_app, Nat.sub_diag, skipn_all, skipn_O in F2. simpl in F2.
    repeat split; auto. unfold len in *. rewrite firstn_length. lia.
  Qed.

  Lemma eqb_ne (a b : nat) : a <> b -> (a =? b)%nat = false.
  Proof. intros; apply Nat.eqb_neq; assumption. Qed.

  (** insert into a non-empty singly linked chain *)
  Lemma sll_insert_at_spec fuel st l1 l2 q ks k i j :
    rep st (l1 ++ l2) q ks -> l1 ++ l2 <> [] -> norm_insert_index (l_size st) i = j -> len l1 = j ->
    (length l1 < fuel)%nat ->
    let new := length (l_heap st) in
    exists st', sll_insert_at fuel st i k = (st', Ret tt) /\
      rep st' (l1 ++ new :: l2) q (ins ks j k) /\ length (l_heap st') = S (length (l_heap st)).
  Proof.
    intros R Hne Ej Hl Hf new. unfold sll_insert_at. rewrite Ej.
    pose proof (r_size _ _ _ _ R) as Hs. rewrite len_app in Hs. pose proof (len_nonneg _ l2) as Hl2.
    destruct (Z.ltb_spec (l_size st) j); [lia|].
    assert (Hpos : 1 <= l_size st).
    { rewrite Hs, <- len_app. destruct (l1 ++ l2); [congruence|]. rewrite len_cons. pose proof (len_nonneg _ l). lia. }
    destruct (Z.eqb_spec (l_size st + 1) 1) as [|_]; [lia|].
    fold new. set (h := l_heap st ++ [Cell k None None]).
    assert (Hnew : forall a, In a (l1 ++ l2) -> (new =? a)%nat = false).
    { intros a Ha. apply eqb_ne. pose proof (rep_lt _ _ _ _ _ R Ha). unfold new. lia. }
    assert (Hnin : ~ In new (l1 ++ l2)).
    { intros Hi. pose proof (rep_lt _ _ _ _ _ R Hi). unfold new in *. lia. }
    assert (Hch : chain (nx h) (l_head st) (l1 ++ l2) q).
    { eapply chain_ext; [apply (r_fw _ _ _ _ R)|]. intros a Ha. unfold h. rewrite nx_new. fold new. rewrite Hnew by exact Ha. reflexivity. }
    destruct (split_keys _ _ _ _ _ j R Hl) as (ks1 & ks2 & Eks & Ek1 & Ek1' & Ek2' & F1 & F2).
    assert (Eins : ins ks j k = ks1 ++ k :: ks2) by (unfold ins; rewrite <- Ek1', <- Ek2'; reflexivity).
    rewrite Eins.
    destruct (Z.eqb_spec j (l_size st + 1 - 1)) as [Eapp|Enapp].
    - (* append *)
      assert (l2 = []) by (destruct l2; [reflexivity|]; rewrite len_cons in *; pose proof (len_nonneg _ l2); lia). subst l2.
      rewrite app_nil_r in *.
      destruct (list_snoc_case _ l1) as [->|(l' & t & ->)]; [congruence|].
      rewrite (r_tail _ _ _ _ R), last_error_snoc.
      pose proof (proj1 (chain_app _ _ _ _ _) Hch) as [_ Ht]. simpl in Ht. destruct Ht as [_ (r & Hr & ->)].
      destruct (nx_cell _ _ _ Hr) as (ct & Ec & En). rewrite (deref_some _ _ _ Ec). rewrite En.
      eexists; split; [reflexivity|]. split; [|cbn [l_heap]; rewrite !len_set_next; unfold h; rewrite app_length; simpl; lia].
      assert (Ht : In t (l' ++ [t])) by (apply in_or_app; right; left; reflexivity).
      assert (Hnt := Hnew t Ht). rewrite Nat.eqb_sym in Hnt.
      constructor; cbn [l_heap l_head l_tail l_size].
      + apply NoDup_insert; rewrite app_nil_r; [apply (r_nd _ _ _ _ R)|exact Hnin].
      + pose proof (chain_insert (nx h) (nx (set_next (set_next h new q) t (Some new))) (l_head st) (l' ++ [t]) [] q new) as CI.
        rewrite app_nil_r in CI. rewrite (chain_hd _ _ _ _ Hch).
        replace (hd_or (l' ++ [t]) q) with (hd_or (l' ++ [t]) (Some new)) by (destruct l'; reflexivity).
        apply CI; clear CI.
        * exact Hch.
        * apply (r_nd _ _ _ _ R).
        * rewrite !nx_set_next, Nat.eqb_refl. rewrite Hnt. unfold h. rewrite nx_new. fold new. rewrite Nat.eqb_refl. reflexivity.
        * intros b Hb Hl'. rewrite last_error_snoc in Hl'. rewrite !nx_set_next, Hnew by exact Hb.
          rewrite eqb_ne by congruence. reflexivity.
        * intros pr E. rewrite last_error_snoc in E. inversion E; subst pr.
          rewrite nx_set_next, Nat.eqb_refl, nx_set_next, Hnew by exact Ht. rewrite Hr. reflexivity.
      + rewrite last_error_snoc. reflexivity.
      + rewrite len_app. change (len [new]) with 1. rewrite Hs. rewrite len_nil. lia.
      + eapply ky_ins; [exact F1|exact F2| |].
        * rewrite !ky_set_next. unfold h. rewrite ky_new. fold new. rewrite Nat.eqb_refl. reflexivity.
        * intros a Ha. rewrite app_nil_r in Ha. rewrite !ky_set_next. unfold h. rewrite ky_new. fold new. rewrite Hnew by exact Ha. reflexivity.
    - rewrite <- Hl. rewrite (walk_to_spec h q l1 l2) by assumption. rewrite Hl.
      assert (Hl2' : l2 <> []) by (intros ->; rewrite len_nil in *; lia).
      eexists; split; [reflexivity|].
      destruct l2 as [|a2 l2]; [congruence|]. cbn [hd_or].
      split; [|cbn [l_heap]; destruct (last_error l1); rewrite ?len_set_next; unfold h; rewrite app_length; simpl; lia].
      constructor; cbn [l_heap l_head l_tail l_size].
      + apply NoDup_insert; [apply (r_nd _ _ _ _ R)|exact Hnin].
      + replace (if j =? 0 then Some new else l_head st) with (hd_or l1 (Some new)).
        2:{ rewrite (chain_hd _ _ _ _ Hch). destruct l1 as [|b l1].
            - rewrite len_nil in Hl. subst j. rewrite <- Hl. reflexivity.
            - rewrite len_cons in Hl. pose proof (len_nonneg _ l1). destruct (Z.eqb_spec j 0); [lia|]. reflexivity. }
        eapply chain_insert; [exact Hch|apply (r_nd _ _ _ _ R)| | |].
        * destruct (last_error l1) as [pr|] eqn:El; rewrite !nx_set_next, Nat.eqb_refl.
          -- apply last_error_in in El. destruct El as [l' ->].
             assert (Hp : In pr ((l' ++ [pr]) ++ a2 :: l2)) by (rewrite !in_app_iff; simpl; auto).
             rewrite Nat.eqb_sym, Hnew by exact Hp. unfold h. rewrite nx_new. fold new. rewrite Nat.eqb_refl. reflexivity.
          -- unfold h. rewrite nx_new. fold new. rewrite Nat.eqb_refl. reflexivity.
        * intros b Hb Hl'. destruct (last_error l1) as [pr|] eqn:El; rewrite !nx_set_next, Hnew by exact Hb; [|reflexivity].
          rewrite eqb_ne by congruence. reflexivity.
        * intros pr E. rewrite E. rewrite nx_set_next, Nat.eqb_refl, nx_set_next.
          pose proof E as E'. apply last_error_in in E'. destruct E' as [l' ->].
          assert (Hp : In pr ((l' ++ [pr]) ++ a2 :: l2)) by (rewrite !in_app_iff; simpl; auto).
          rewrite Hnew by exact Hp. destruct (chain_def _ _ _ _ pr Hch Hp) as [r Hr]. rewrite Hr. reflexivity.
      + rewrite (r_tail _ _ _ _ R). rewrite !last_error_app by discriminate. rewrite (last_error_cons _ new) by discriminate. reflexivity.
      + rewrite len_app, len_cons. lia.
      + eapply ky_ins; [exact F1|exact F2| |].
        * destruct (last_error l1); rewrite !ky_set_next; unfold h; rewrite ky_new; fold new; rewrite Nat.eqb_refl; reflexivity.
        * intros a Ha. destruct (last_error l1); rewrite !ky_set_next; unfold h; rewrite ky_new; fold new; rewrite Hnew by exact Ha; reflexivity.
  Qed.

  (** extract from a singly linked chain *)
  Lemma sll_extract_spec fuel st l1 a l2 q ks i j :
    rep st (l1 ++ a :: l2) q ks -> (if i <? 0 then l_size st + i else i) = j -> len l1 = j ->
    (length l1 < fuel)%nat ->
    exists st' k, sll_extract fuel st i = (st', Ret a) /\ nth_error ks (Z.to_nat j) = Some k /\ ky (l_heap st') a = Some k /\
      l_head st' = hd_or l1 (hd_or l2 q) /\
      rep st' (l1 ++ l2) q (del ks j) /\ length (l_heap st') = length (l_heap st).
  Proof.
    intros R Ej Hl Hf. unfold sll_extract. rewrite Ej.
    pose proof (r_size _ _ _ _ R) as Hs. rewrite len_app, len_cons in Hs. pose proof (len_nonneg _ l2) as Hl2. pose proof (len_nonneg _ l1) as Hl1.
    destruct (Z.eqb_spec (l_size st) 0); [lia|]. destruct (Z.leb_spec (l_size st) j); [lia|].
    pose proof (r_fw _ _ _ _ R) as Hch.
    rewrite <- Hl. rewrite (walk_to_spec _ q l1 (a :: l2)) by assumption. rewrite Hl. cbn [hd_or].
    assert (Ha : nx (l_heap st) a = Some (hd_or l2 q)).
    { apply chain_app in Hch. destruct Hch as [_ Hch]. simpl in Hch. destruct Hch as [_ (r & Hr & Hch)].
      rewrite (chain_hd _ _ _ _ Hch) in Hr. exact Hr. }
    destruct (nx_cell _ _ _ Ha) as (c & Ec & En). rewrite (deref_some _ _ _ Ec). rewrite En.
    destruct (split_keys _ _ _ _ _ j R Hl) as (ks1 & ks2 & Eks & Ek1 & Ek1' & Ek2' & F1 & F2).
    inversion F2 as [|x k l l' Hk F2' E1 E2]; subst x l.
    rewrite <- E2 in *.
    eexists; exists k; split; [reflexivity|].
    assert (Hnd := r_nd _ _ _ _ R).
    assert (Hka : forall h1, h1 = match last_error l1 with Some p => set_next (l_heap st) p (hd_or l2 q) | None => l_heap st end -> forall b, ky h1 b = ky (l_heap st) b).
    { intros h1 -> b. destruct (last_error l1); [apply ky_set_next|reflexivity]. }
    split. { rewrite Eks. rewrite nth_error_app2 by (unfold len in Ek1; lia). replace (Z.to_nat j - length ks1)%nat with 0%nat by (unfold len in Ek1; lia). reflexivity. }
    split. { cbn [l_heap]. erewrite Hka by reflexivity. exact Hk. }
    split. { cbn [l_head]. rewrite (chain_hd _ _ _ _ Hch). destruct l1 as [|b l1].
             - rewrite len_nil in Hl. subst j. rewrite <- Hl. reflexivity.
             - rewrite len_cons in Hl. pose proof (len_nonneg _ l1). destruct (Z.eqb_spec j 0); [lia|]. reflexivity. }
    split; [|cbn [l_heap]; destruct (last_error l1); rewrite ?len_set_next; reflexivity].
    constructor; cbn [l_heap l_head l_tail l_size].
    - eapply NoDup_remove_1; eauto.
    - replace (if j =? 0 then hd_or l2 q else l_head st) with (hd_or l1 (hd_or l2 q)).
      2:{ rewrite (chain_hd _ _ _ _ Hch). destruct l1 as [|b l1].
             - rewrite len_nil in Hl. subst j. rewrite <- Hl. reflexivity.
             - rewrite len_cons in Hl. pose proof (len_nonneg _ l1). destruct (Z.eqb_spec j 0); [lia|]. reflexivity. }
      eapply (chain_remove (nx (l_heap st))); [exact Hch|exact Hnd| |].
      + intros b Hb Hl'. destruct (last_error l1) as [pr|] eqn:El; [|reflexivity].
        rewrite nx_set_next, eqb_ne by congruence. reflexivity.
      + intros pr E. rewrite E. rewrite nx_set_next, Nat.eqb_refl.
        apply last_error_in in E. destruct E as [l'' ->].
        destruct (chain_def _ _ _ _ pr Hch) as [r Hr]; [rewrite !in_app_iff; simpl; auto|]. rewrite Hr. reflexivity.
    - rewrite (r_tail _ _ _ _ R). destruct l2 as [|b l2].
      + rewrite len_nil in Hs. rewrite app_nil_r. destruct (Z.eqb_spec j (l_size st - 1)); [reflexivity|lia].
      + rewrite len_cons in Hs. pose proof (len_nonneg _ l2). destruct (Z.eqb_spec j (l_size st - 1)); [lia|].
        rewrite !last_error_app by discriminate. rewrite (last_error_cons _ a) by discriminate. reflexivity.
    - rewrite len_app. lia.
    - unfold del. rewrite <- Ek1'. replace (skipn (S (Z.to_nat j)) ks) with l'.
      2:{ rewrite Eks. rewrite skipn_app. rewrite skipn_all2 by (unfold len in Ek1; lia).
          replace (S (Z.to_nat j) - length ks1)%nat with 1%nat by (unfold len in Ek1; lia). reflexivity. }
      apply Forall2_app.
      + eapply Forall2_imp; [|exact F1]. intros b k' Hb; cbv beta in *. erewrite Hka by reflexivity. exact Hb.
      + eapply Forall2_imp; [|exact F2']. intros b k' Hb; cbv beta in *. erewrite Hka by reflexivity. exact Hb.
  Qed.

  (** insert_after on a singly linked chain *)
  Lemma sll_insert_after_spec st l1 a l2 q ks k :
    rep st (l1 ++ a :: l2) q ks ->
    let new := length (l_heap st) in
    exists st', sll_insert_after st a k = (st', Ret tt) /\ l_head st' = l_head st /\
      l_tail st' = match hd_or l2 q with None => Some new | Some _ => l_tail st end /\
      nx (l_heap st') new = Some (hd_or l2 q) /\
      rep (LL (l_heap st') (l_head st') (last_error (l1 ++ a :: new :: l2)) (l_size st')) (l1 ++ a :: new :: l2) q (ins ks (len l1 + 1) k) /\
      length (l_heap st') = S (length (l_heap st)).
  Proof.
    intros R new. unfold sll_insert_after. fold new. set (h := l_heap st ++ [Cell k None None]).
    assert (Hnew : forall b, In b (l1 ++ a :: l2) -> (new =? b)%nat = false).
    { intros b Hb. apply eqb_ne. pose proof (rep_lt _ _ _ _ _ R Hb). unfold new. lia. }
    assert (Hnin : ~ In new (l1 ++ a :: l2)).
    { intros Hi. pose proof (rep_lt _ _ _ _ _ R Hi). unfold new in *. lia. }
    assert (Hch : chain (nx h) (l_head st) (l1 ++ a :: l2) q).
    { eapply chain_ext; [apply (r_fw _ _ _ _ R)|]. intros b Hb. unfold h. rewrite nx_new. fold new. rewrite Hnew by exact Hb. reflexivity. }
    assert (Ha : nx h a = Some (hd_or l2 q)).
    { apply chain_app in Hch. destruct Hch as [_ Hch]. simpl in Hch. destruct Hch as [_ (r & Hr & Hch)].
      rewrite (chain_hd _ _ _ _ Hch) in Hr. exact Hr. }
    destruct (nx_cell _ _ _ Ha) as (c & Ec & En). rewrite (deref_some _ _ _ Ec). rewrite En.
    assert (Hia : In a (l1 ++ a :: l2)) by (rewrite in_app_iff; simpl; auto).
    assert (Hna := Hnew a Hia). assert (Han := Hna). rewrite Nat.eqb_sym in Han.
    eexists; split; [reflexivity|]. cbn [l_heap l_head l_tail l_size].
    split; [reflexivity|]. split; [reflexivity|].
    assert (Hn : nx (set_next (set_next h new (hd_or l2 q)) a (Some new)) new = Some (hd_or l2 q)).
    { rewrite !nx_set_next, Han, Nat.eqb_refl. unfold h. rewrite nx_new. fold new. rewrite Nat.eqb_refl. reflexivity. }
    split; [exact Hn|].
    split; [|rewrite !len_set_next; unfold h; rewrite app_length; simpl; lia].
    replace (l1 ++ a :: new :: l2) with ((l1 ++ [a]) ++ new :: l2) by (rewrite <- app_assoc; reflexivity).
    assert (R' : rep st ((l1 ++ [a]) ++ l2) q ks) by (rewrite <- app_assoc; exact R).
    destruct (split_keys _ _ _ _ _ (len l1 + 1) R') as (ks1 & ks2 & Eks & Ek1 & Ek1' & Ek2' & F1 & F2).
    { rewrite len_app. reflexivity. }
    constructor; cbn [l_heap l_head l_tail l_size].
    - apply NoDup_insert; rewrite <- app_assoc; [apply (r_nd _ _ _ _ R)|exact Hnin].
    - rewrite (chain_hd _ _ _ _ Hch).
      replace (hd_or (l1 ++ a :: l2) q) with (hd_or (l1 ++ [a]) (Some new)) by (destruct l1; reflexivity).
      eapply (chain_insert (nx h)); [rewrite <- app_assoc; exact Hch|rewrite <- app_assoc; apply (r_nd _ _ _ _ R)|exact Hn| |].
      + intros b Hb Hl. rewrite last_error_snoc in Hl. rewrite <- app_assoc in Hb. rewrite !nx_set_next, Hnew by exact Hb.
        rewrite eqb_ne by congruence. reflexivity.
      + intros pr E. rewrite last_error_snoc in E. inversion E; subst pr. rewrite nx_set_next, Nat.eqb_refl, nx_set_next, Hna, Ha. reflexivity.
    - reflexivity.
    - rewrite (r_size _ _ _ _ R), !len_app, !len_cons, len_nil. lia.
    - unfold ins. rewrite <- Ek1', <- Ek2'. eapply ky_ins; [exact F1|exact F2| |].
      + rewrite !ky_set_next. unfold h. rewrite ky_new. fold new. rewrite Nat.eqb_refl. reflexivity.
      + intros b Hb. rewrite <- app_assoc in Hb. rewrite !ky_set_next. unfold h. rewrite ky_new. fold new. rewrite Hnew by exact Hb. reflexivity.
  Qed.

  (** first insertion *)
  Lemma sll_insert_first fuel (st : ll K) i k j : l_size st = 0 -> norm_insert_index 0 i = j -> j <= 0 ->
    sll_insert_at fuel st i k =
      (LL (l_heap st ++ [Cell k None None]) (Some (length (l_heap st))) (Some (length (l_heap st))) 1, Ret tt).
  Proof.
    intros E Ej Hj. unfold sll_insert_at. rewrite E, Ej. destruct (Z.ltb_spec 0 j); [lia|].
    change (0 + 1 =? 1) with true. cbn [negb]. reflexivity.
  Qed.
  Lemma rep_first (h : list (cell K)) k pvs : rep (LL (h ++ [Cell k None pvs]) (Some (length h)) (Some (length h)) 1) [length h] None [k].
  Proof.
    constructor; cbn [l_heap l_head l_tail l_size].
    - constructor; [simpl; tauto|constructor].
    - simpl. split; [reflexivity|]. exists None. rewrite nx_new, Nat.eqb_refl. auto.
    - reflexivity.
    - reflexivity.
    - constructor; [|constructor]. rewrite ky_new, Nat.eqb_refl. reflexivity.
  Qed.

  Lemma norm_index_spec n i : 0 <= n -> 
    norm_insert_index n i = (if (n =? 0) && (i =? -1) then 0 else if i <? 0 then n + i else i).
  Proof.
    intros Hn. unfold norm_insert_index. destruct (Z.eqb_spec n 0); simpl.
    - subst. destruct (Z.eqb_spec i 0), (Z.eqb_spec i (-1)); simpl; subst; try reflexivity.
    - reflexivity.
  Qed.

  Lemma getitem_spec fuel st l1 a l2 q ks i : rep st (l1 ++ a :: l2) q ks ->
    (if i <? 0 then l_size st + i else i) = len l1 -> (length l1 < fuel)%nat ->
    ll_getitem fuel st i = Ret (Some a).
  Proof.
    intros R Ei Hf. unfold ll_getitem. rewrite Ei. pose proof (r_size _ _ _ _ R) as Hs. rewrite len_app, len_cons in Hs.
    pose proof (len_nonneg _ l2). destruct (Z.leb_spec (l_size st) (len l1)); [lia|].
    rewrite (walk_to_spec _ q l1 (a :: l2)) by (try assumption; apply (r_fw _ _ _ _ R)). reflexivity.
  Qed.

  Lemma split_elem st ps q ks j : rep st ps q ks -> 0 <= j < len ks -> exists l1 a l2 k, ps = l1 ++ a :: l2 /\ len l1 = j /\
      nth_error ks (Z.to_nat j) = Some k /\ ky (l_heap st) a = Some k /\ (length l1 < length ps)%nat.
  Proof.
    intros R Hj. pose proof (rep_len _ _ _ _ R) as El. unfold len in *.
    destruct (nth_error ps (Z.to_nat j)) as [a|] eqn:Ea; [|apply nth_error_None in Ea; lia].
    destruct (nth_error_split _ _ Ea) as (l1 & l2 & -> & Hl1).
    destruct (nth_error ks (Z.to_nat j)) as [k|] eqn:Ek; [|apply nth_error_None in Ek; lia].
    exists l1, a, l2, k. repeat split; auto; try lia.
    - destruct (nth_error_split _ _ Ek) as (k1 & k2 & -> & Hk1).
      pose proof (r_keys _ _ _ _ R) as F. apply Forall2_app_inv_l in F. destruct F as (x & y & F1 & F2 & E).
      assert (length x = length k1) by (apply Forall2_len in F1; lia).
      inversion F2; subst.
      assert (Ex : k1 = x /\ k :: k2 = y0 :: l').
      { clear -E H. revert x E H. induction k1 as [|z k1 IH]; intros [|w x] E H; simpl in *; try lia; [auto|].
        inversion E; subst. destruct (IH x H2); [lia|]. subst. auto. }
      destruct Ex as [_ Ex]. inversion Ex; subst. assumption.
  Qed.

  (** ** C11: simulation for SinglyLinkedList *)
  Definition no_before_op (o : lop K) : Prop := match o with LInsertBefore _ _ => False | _ => True end.

  Lemma ltb_len_cases (x y : Z) : (x <? y) = true \/ (x <? y) = false.
  Proof. destruct (x <? y); auto. Qed.

  Lemma sll_ins_sim st ps ks i k ks' r :
    rep st ps None ks -> spec_insert ks i k = Some (ks', r) ->
    exists st' ps', (let (s, x) := sll_insert_at (S (S (length (l_heap st)))) st i k in (s, out_unit x)) = (st', r) /\ rep st' ps' None ks'.
  Proof.
    intros R H. pose proof (rep_len _ _ _ _ R) as El. pose proof (r_size _ _ _ _ R) as Es. pose proof (len_nonneg _ ks) as Hn.
    unfold spec_insert in H. rewrite <- (norm_index_spec (len ks) i) in H by assumption.
    remember (norm_insert_index (len ks) i) as j eqn:Ej. symmetry in Ej.
    destruct (Z.ltb_spec (len ks) j).
    { injection H as <- <-. exists st, ps. unfold sll_insert_at. rewrite Es, El, Ej.
      destruct (Z.ltb_spec (len ks) j); [|lia]. auto. }
    destruct (Z.ltb_spec j 0); [discriminate|]. inversion H; subst ks' r.
    destruct ps as [|p0 ps0].
    - rewrite len_nil in El. rewrite <- El in *. rewrite len_nil in Es.
      assert (ks = []) by (destruct ks; [reflexivity|]; rewrite len_cons in El; pose proof (len_nonneg _ ks); lia). subst ks.
      rewrite (sll_insert_first _ _ _ _ j) by (auto; lia).
      eexists; exists [length (l_heap st)]. split; [reflexivity|].
      replace (ins [] j k) with [k] by (unfold ins; rewrite firstn_nil, skipn_nil; reflexivity). apply rep_first.
    - destruct (split_at (p0 :: ps0) j) as (l1 & l2 & Eps & Hl & _ & _); [lia|].
      rewrite Eps in R. pose proof (rep_size_heap _ _ _ _ R) as Hh. rewrite app_length in Hh.
      destruct (sll_insert_at_spec (S (S (length (l_heap st)))) st l1 l2 None ks k i j R) as (st' & E & R' & _).
      + rewrite <- Eps; discriminate.
      + rewrite Es, El; exact Ej.
      + exact Hl.
      + lia.
      + rewrite E. eexists; eexists; split; [reflexivity|exact R'].
  Qed.

  Lemma sll_ext_sim st ps ks i ks' r :
    rep st ps None ks -> spec_extract ks i = Some (ks', r) ->
    exists st' ps', (let (s, x) := sll_extract (S (S (length (l_heap st)))) st i in (s, out_node s x)) = (st', r) /\ rep st' ps' None ks'.
  Proof.
    intros R H. pose proof (rep_len _ _ _ _ R) as El. pose proof (r_size _ _ _ _ R) as Es. pose proof (len_nonneg _ ks) as Hn.
    unfold spec_extract in H. remember (if i <? 0 then len ks + i else i) as j eqn:Ej. symmetry in Ej.
    destruct (Z.eqb_spec (len ks) 0).
    { injection H as <- <-. exists st, ps. unfold sll_extract. rewrite Es, El. destruct (Z.eqb_spec (len ks) 0); [auto|lia]. }
    destruct (Z.leb_spec (len ks) j).
    { injection H as <- <-. exists st, ps. unfold sll_extract. rewrite Es, El. destruct (Z.eqb_spec (len ks) 0); [lia|].
      destruct (Z.leb_spec (len ks) (if i <? 0 then len ks + i else i)); [auto|lia]. }
    destruct (Z.ltb_spec j 0); [discriminate|].
    destruct (split_elem _ _ _ _ j R) as (l1 & a & l2 & k & -> & Hl & Hk & _ & Hlt); [lia|].
    rewrite Hk in H. inversion H; subst ks' r.
    pose proof (rep_size_heap _ _ _ _ R) as Hh.
    destruct (sll_extract_spec (S (S (length (l_heap st)))) st l1 a l2 None ks i j R) as (st' & k' & E & Hk' & Hka & _ & R' & _).
    + rewrite Es, El. exact Ej.
    + exact Hl.
    + lia.
    + rewrite E. exists st', (l1 ++ l2). split; [|exact R']. unfold out_node. rewrite Hka. congruence.
  Qed.

  Lemma getitem_err st ps q ks i : rep st ps q ks -> len ks <= (if i <? 0 then len ks + i else i) ->
    forall fuel, ll_getitem fuel st i = Raise IndexError.
  Proof.
    intros R H fuel. unfold ll_getitem. rewrite (r_size _ _ _ _ R), (rep_len _ _ _ _ R).
    destruct (Z.leb_spec (len ks) (if i <? 0 then len ks + i else i)); [reflexivity|lia].
  Qed.

  Lemma get_sim st ps q ks i ks' r : rep st ps q ks -> spec_get ks i = Some (ks', r) ->
    ks' = ks /\ (match ll_getitem (S (S (length (l_heap st)))) st i with
                     | Ret (Some a) => match ky (l_heap st) a with Some k => LKey k | None => LErr AttributeError end
                     | Ret None => LErr AttributeError
                     | Raise e => LErr e | OutOfFuel => LFuel end) = r.
  Proof.
    intros R H. unfold spec_get in H. destruct (Z.leb_spec (len ks) (if i <? 0 then len ks + i else i)).
    { inversion H; subst. erewrite getitem_err by eauto. auto. }
    destruct (Z.ltb_spec (if i <? 0 then len ks + i else i) 0); [discriminate|].
    destruct (split_elem _ _ _ _ (if i <? 0 then len ks + i else i) R) as (l1 & a & l2 & k & -> & Hl & Hk & Hka & Hlt); [lia|].
    rewrite Hk in H. inversion H; subst. split; [reflexivity|].
    pose proof (rep_size_heap _ _ _ _ R) as Hh.
    rewrite (getitem_spec _ st l1 a l2 q ks'); [rewrite Hka; reflexivity|exact R| |lia].
    rewrite (r_size _ _ _ _ R), (rep_len _ _ _ _ R). symmetry; exact Hl.
  Qed.

  Lemma sll_op_sim st ps ks o ks' r : rep st ps None ks -> no_before_op o -> spec_op ks o = Some (ks', r) ->
    exists st' ps', cls_op SLL st o = (st', r) /\ rep st' ps' None ks'.
  Proof.
    intros R Ho H. pose proof (rep_len _ _ _ _ R) as El. pose proof (r_size _ _ _ _ R) as Es. pose proof (len_nonneg _ ks) as Hn.
    destruct o as [i k|i k|i k|i|k|k| | |i]; cbn [spec_op cls_op SLL k_insert_at k_insert_after k_extract] in *.
    - eapply sll_ins_sim; eauto.
    - unfold spec_insert_rel in H. unfold with_node.
      destruct (Z.leb_spec (len ks) (if i <? 0 then len ks + i else i)).
      { inversion H; subst. erewrite getitem_err by eauto. eauto. }
      destruct (Z.ltb_spec (if i <? 0 then len ks + i else i) 0); [discriminate|].
      destruct (split_elem _ _ _ _ (if i <? 0 then len ks + i else i) R) as (l1 & a & l2 & k' & -> & Hl & Hk & Hka & Hlt); [lia|].
      pose proof (rep_size_heap _ _ _ _ R) as Hh.
      rewrite (getitem_spec _ st l1 a l2 None ks); [|exact R|rewrite Es, El; symmetry; exact Hl|lia].
      destruct (sll_insert_after_spec st l1 a l2 None ks k R) as (st' & E & E1 & E2 & _ & R' & _). rewrite E.
      inversion H; subst. exists st'. eexists. split; [reflexivity|]. rewrite Hl in R'.
      destruct st' as [h hd tl sz]. cbn [l_heap l_head l_tail l_size] in *.
      replace tl with (last_error (l1 ++ a :: length (l_heap st) :: l2)); [exact R'|].
      rewrite E2. rewrite last_error_app by discriminate. rewrite (last_error_cons _ a) by discriminate.
      destruct l2 as [|b l2]; [reflexivity|]. cbn [hd_or]. rewrite (last_error_cons _ (length (l_heap st))) by discriminate.
      rewrite (r_tail _ _ _ _ R), last_error_app by discriminate. rewrite (last_error_cons _ a) by discriminate. reflexivity.
    - contradiction.
    - eapply sll_ext_sim; eauto.
    - eapply sll_ins_sim; [exact R|]. rewrite Es, El. inversion H; subst.
      unfold spec_insert. replace ((len ks =? 0) && (len ks =? -1)) with false by (destruct (Z.eqb_spec (len ks) (-1)); [lia|rewrite andb_false_r; reflexivity]).
      destruct (Z.ltb_spec (len ks) 0); [lia|]. rewrite Z.ltb_irrefl. destruct (Z.ltb_spec (len ks) 0); [lia|].
      unfold ins, len. rewrite Nat2Z.id, firstn_all, skipn_all. reflexivity.
    - eapply sll_ins_sim; [exact R|]. inversion H; subst. unfold spec_insert.
      rewrite andb_false_r. simpl. destruct (Z.ltb_spec (len ks) 0); [lia|]. reflexivity.
    - eapply sll_ext_sim; eauto.
    - eapply sll_ext_sim; eauto.
    - destruct (get_sim _ _ _ _ _ _ _ R H) as [-> E]. rewrite E. eauto.
  Qed.

  Lemma sll_run_sim ops : forall st ps ks ks' rs, rep st ps None ks -> Forall no_before_op ops -> spec_ops ops ks = Some (ks', rs) ->
    exists st' ps', cls_run SLL ops st = (st', rs) /\ rep st' ps' None ks'.
  Proof.
    induction ops as [|o ops IH]; intros st ps ks ks' rs R Ho H; simpl in *.
    - inversion H; subst. eauto.
    - inversion Ho; subst. destruct (spec_op ks o) as [[l1 r]|] eqn:E1; [|discriminate].
      destruct (spec_ops ops l1) as [[l2 rs']|] eqn:E2; [|discriminate]. inversion H; subst.
      destruct (sll_op_sim _ _ _ _ _ _ R H2 E1) as (s1 & p1 & -> & R1).
      destruct (IH _ _ _ _ _ R1 H3 E2) as (s2 & p2 & -> & R2). eauto.
  Qed.

  Lemma rep_new : rep (ll_new K) [] None [].
  Proof. constructor; simpl; auto; constructor. Qed.

  Lemma follow_rep (step : cell K -> option nat) (h : list (cell K)) p ps ks n :
    chain (fun a => option_map step (nth_error h a)) p ps None -> Forall2 (fun a k => ky h a = Some k) ps ks -> (length ps <= n)%nat ->
    map snd (follow step n h p) = ks.
  Proof.
    revert p ks n; induction ps as [|a ps IH]; intros p ks n H F Hn; inversion F; subst; simpl in H.
    - subst p. destruct n; reflexivity.
    - destruct H as [-> (r & Hr & H)]. destruct n; simpl in Hn; [lia|]. simpl.
      destruct (nth_error h a) as [c|] eqn:Ec; [|discriminate]. simpl in *. inversion Hr; subst.
      unfold ky in H2. rewrite Ec in H2. simpl in H2. inversion H2; subst. f_equal. apply IH; auto; lia.
  Qed.

  (** what a caller sees of a list: the keys met by following links, its length, the key of the tail *)
  Definition keys_from (step : cell K -> option nat) (st : ll K) (p : option nat) : list K :=
    map snd (follow step (S (length (l_heap st))) (l_heap st) p).
  Definition key_of (st : ll K) (p : option nat) : option K := match p with Some a => ky (l_heap st) a | None => None end.

  Lemma rep_tail_key st ps q ks : rep st ps q ks -> key_of st (l_tail st) = last_error ks.
  Proof.
    intros R. rewrite (r_tail _ _ _ _ R). pose proof (r_keys _ _ _ _ R) as F.
    destruct (list_snoc_case _ ps) as [->|(l & a & ->)]; [inversion F; reflexivity|].
    rewrite last_error_snoc. apply Forall2_app_inv_l in F. destruct F as (x & y & F1 & F2 & ->).
    inversion F2; subst. inversion H3; subst. rewrite last_error_snoc. assumption.
  Qed.

  Lemma sll_history ops ks rs : Forall no_before_op ops -> spec_ops ops [] = Some (ks, rs) ->
    exists st, cls_run SLL ops (ll_new K) = (st, rs) /\ keys_from c_next st (l_head st) = ks /\
      l_size st = len ks /\ key_of st (l_tail st) = last_error ks.
  Proof.
    intros Ho H. destruct (sll_run_sim ops _ _ _ _ _ rep_new Ho H) as (st & ps & E & R).
    exists st. split; [exact E|]. split; [|split].
    - unfold keys_from. eapply follow_rep; [apply (r_fw _ _ _ _ R)|apply (r_keys _ _ _ _ R)|]. pose proof (rep_size_heap _ _ _ _ R). lia.
    - rewrite (r_size _ _ _ _ R). eapply rep_len; eauto.
    - eapply rep_tail_key; eauto.
  Qed.

  (** ** C12: DoublyLinkedList *)
  Definition drep (st : ll K) ps ks : Prop := rep st ps None ks /\ chain (pv (l_heap st)) (l_tail st) (rev ps) None.

  Lemma last_rev (l : list nat) : last_error (rev l) = hd_error l.
  Proof. unfold last_error. rewrite rev_involutive. reflexivity. Qed.
  Lemma hd_or_rev (l : list nat) : hd_or (rev l) None = last_error l.
  Proof. unfold last_error. destruct (rev l); reflexivity. Qed.

  Lemma dll_insert_core st l1 l2 ks k h' hd' tl' :
    drep st (l1 ++ l2) ks ->
    let new := length (l_heap st) in
    nx h' new = Some (hd_or l2 None) ->
    (forall b, In b (l1 ++ l2) -> nx h' b = if opt_eqb (last_error l1) (Some b) then Some (Some new) else nx (l_heap st) b) ->
    pv h' new = Some (last_error l1) ->
    (forall b, In b (l1 ++ l2) -> pv h' b = if opt_eqb (hd_error l2) (Some b) then Some (Some new) else pv (l_heap st) b) ->
    ky h' new = Some k -> (forall b, In b (l1 ++ l2) -> ky h' b = ky (l_heap st) b) ->
    hd' = hd_or l1 (Some new) -> tl' = hd_or (rev l2) (Some new) ->
    drep (LL h' hd' tl' (l_size st + 1)) (l1 ++ new :: l2) (ins ks (len l1) k).
  Proof.
    intros [R B] new Hn Ho Pn Po Kn Ko -> ->.
    assert (Hnin : ~ In new (l1 ++ l2)).
    { intros Hi. pose proof (rep_lt _ _ _ _ _ R Hi). unfold new in *. lia. }
    destruct (split_keys _ _ _ _ _ (len l1) R eq_refl) as (ks1 & ks2 & Eks & Ek1 & Ek1' & Ek2' & F1 & F2).
    split; [constructor|]; cbn [l_heap l_head l_tail l_size].
    - apply NoDup_insert; [apply (r_nd _ _ _ _ R)|exact Hnin].
    - eapply (chain_insert (nx (l_heap st))); [apply (r_fw _ _ _ _ R)|apply (r_nd _ _ _ _ R)|exact Hn| |].
      + intros b Hb Hl. rewrite Ho by exact Hb. destruct (last_error l1) as [x|]; simpl; [|reflexivity]. rewrite eqb_ne by congruence. reflexivity.
      + intros pr E. rewrite Ho. 
        * rewrite E. simpl. rewrite Nat.eqb_refl. reflexivity.
        * apply last_error_in in E. destruct E as [l' ->]. rewrite !in_app_iff; simpl; auto.
    - rewrite last_error_app by discriminate. destruct (list_snoc_case _ l2) as [->|(l' & t & ->)]; [reflexivity|].
      rewrite last_error_cons by (destruct l'; discriminate). rewrite rev_app_distr, last_error_snoc. reflexivity.
    - rewrite (r_size _ _ _ _ R), !len_app, len_cons. lia.
    - unfold ins. rewrite <- Ek1', <- Ek2'. eapply ky_ins; eauto.
    - assert (Er : rev (l1 ++ new :: l2) = rev l2 ++ new :: rev l1).
      { rewrite rev_app_distr. simpl. rewrite <- app_assoc. reflexivity. }
      rewrite Er. rewrite rev_app_distr in B.
      eapply (chain_insert (pv (l_heap st))); [exact B| |rewrite hd_or_rev; exact Pn| |].
      + rewrite <- rev_app_distr. apply NoDup_rev. apply (r_nd _ _ _ _ R).
      + intros b Hb Hl. rewrite <- rev_app_distr in Hb. apply in_rev in Hb. rewrite Po by exact Hb.
        rewrite last_rev in Hl. destruct (hd_error l2) as [x|]; simpl; [|reflexivity]. rewrite eqb_ne by congruence. reflexivity.
      + intros pr E. rewrite last_rev in E. rewrite Po.
        * rewrite E. simpl. rewrite Nat.eqb_refl. reflexivity.
        * destruct l2; [discriminate|]. inversion E; subst. rewrite in_app_iff; simpl; auto.
  Qed.

  Lemma chain_pv_last (h : list (cell K)) q : forall (p : option nat) l a, chain (pv h) p (a :: l) q -> pv h a = Some (hd_or l q).
  Proof. intros p l a H. simpl in H. destruct H as [_ (r & Hr & H)]. rewrite (chain_hd _ _ _ _ H) in Hr. exact Hr. Qed.

  Lemma drep_pv st l1 a l2 ks : drep st (l1 ++ a :: l2) ks -> pv (l_heap st) a = Some (last_error l1).
  Proof.
    intros [R B]. rewrite rev_app_distr in B. simpl in B. rewrite <- app_assoc in B. apply chain_app in B. destruct B as [_ B].
    apply chain_pv_last in B. simpl in B. rewrite hd_or_rev in B. exact B.
  Qed.
  Lemma drep_nx st l1 a l2 ks : drep st (l1 ++ a :: l2) ks -> nx (l_heap st) a = Some (hd_or l2 None).
  Proof.
    intros [R _]. pose proof (r_fw _ _ _ _ R) as B. apply chain_app in B. destruct B as [_ B].
    simpl in B. destruct B as [_ (r & Hr & H)]. rewrite (chain_hd _ _ _ _ H) in Hr. exact Hr.
  Qed.
  Lemma drep_cell st l1 a l2 ks : drep st (l1 ++ a :: l2) ks ->
    exists c, nth_error (l_heap st) a = Some c /\ c_next c = hd_or l2 None /\ c_prev c = last_error l1.
  Proof.
    intros D. pose proof (drep_nx _ _ _ _ _ D) as E1. pose proof (drep_pv _ _ _ _ _ D) as E2.
    destruct (nx_cell _ _ _ E1) as (c & Ec & En). exists c. repeat split; auto.
    unfold pv in E2. rewrite Ec in E2. simpl in E2. congruence.
  Qed.
  Lemma deref_app (h : list (cell K)) c0 a c : nth_error h a = Some c -> deref (h ++ [c0]) (Some a) = Ret c.
  Proof. intros E. simpl. rewrite nth_error_app1; [rewrite E; reflexivity|]. apply nth_error_Some. congruence. Qed.

  Ltac views := rewrite ?nx_set_next, ?nx_set_prev, ?pv_set_next, ?pv_set_prev, ?ky_set_next, ?ky_set_prev, ?nx_new, ?pv_new, ?ky_new, ?Nat.eqb_refl.

  (** the heap just before linking: every old cell keeps its links *)
  Lemma dll_insert_after_spec st l1 a l2 ks k : drep st (l1 ++ a :: l2) ks ->
    exists st', dll_insert_after st a k = (st', Ret tt) /\ drep st' (l1 ++ a :: length (l_heap st) :: l2) (ins ks (len l1 + 1) k) /\
       length (l_heap st') = S (length (l_heap st)).
  Proof.
    intros D. destruct (drep_cell _ _ _ _ _ D) as (c & Ec & En & Ep).
    unfold dll_insert_after. set (new := length (l_heap st)) in *. rewrite (deref_app _ _ _ _ Ec). rewrite En.
    eexists; split; [reflexivity|]. 
    assert (Hlt : forall b, In b (l1 ++ a :: l2) -> (new =? b)%nat = false /\ (b =? new)%nat = false).
    { intros b Hb. destruct D as [R _]. pose proof (rep_lt _ _ _ _ _ R Hb). unfold new. split; apply eqb_ne; lia. }
    assert (Hia : In a (l1 ++ a :: l2)) by (rewrite in_app_iff; simpl; auto).
    destruct (Hlt a Hia) as [Ha1 Ha2].
    split; [|cbn [l_heap]; destruct (hd_or l2 None); rewrite ?len_set_prev, ?len_set_next, ?len_set_prev, ?len_set_next, app_length; simpl; unfold new; lia].
    replace (l1 ++ a :: new :: l2) with ((l1 ++ [a]) ++ new :: l2) by (rewrite <- app_assoc; reflexivity).
    replace (len l1 + 1) with (len (l1 ++ [a])) by (rewrite len_app; reflexivity).
    assert (D' : drep st ((l1 ++ [a]) ++ l2) ks) by (rewrite <- app_assoc; exact D).
    assert (Hnd := r_nd _ _ _ _ (proj1 D)).
    eapply dll_insert_core; [exact D'|..]; fold new.
    - destruct l2 as [|n l2]; cbn [hd_or]; views; rewrite ?Ha2; views; rewrite ?Ha2; views; reflexivity.
    - intros b Hb. rewrite <- app_assoc in Hb. destruct (Hlt b Hb) as [Hb1 Hb2]. rewrite last_error_snoc. simpl.
      assert (Hd : nx (l_heap st) a = Some (hd_or l2 None)) by (eapply drep_nx; eauto).
      destruct (hd_or l2 None); repeat (views; rewrite ?Hb1, ?Hb2, ?Ha1); fold new; rewrite ?Hb1;
        (destruct (Nat.eqb_spec a b); [subst b; rewrite Hd; reflexivity|reflexivity]).
    - rewrite last_error_snoc. destruct l2 as [|n l2]; cbn [hd_or]; repeat (views; rewrite ?Ha2); fold new; rewrite ?Nat.eqb_refl; [reflexivity|].
      destruct (Hlt n) as [E1 E2]; [rewrite in_app_iff; simpl; auto|]. rewrite E2. reflexivity.
    - intros b Hb. rewrite <- app_assoc in Hb. destruct (Hlt b Hb) as [Hb1 Hb2].
      destruct l2 as [|n l2]; cbn [hd_or hd_error]; repeat (views; rewrite ?Hb1, ?Hb2); fold new; rewrite ?Hb1; simpl; [reflexivity|].
      destruct (Nat.eqb_spec n b) as [->|]; [|reflexivity].
      replace (l1 ++ a :: b :: l2) with ((l1 ++ [a]) ++ b :: l2) in D by (rewrite <- app_assoc; reflexivity).
      rewrite (drep_pv _ _ _ _ _ D). reflexivity.
    - destruct (hd_or l2 None); repeat views; fold new; rewrite ?Nat.eqb_refl; reflexivity.
    - intros b Hb. rewrite <- app_assoc in Hb. destruct (Hlt b Hb) as [Hb1 Hb2]. destruct (hd_or l2 None); repeat views; fold new; rewrite Hb1; reflexivity.
    - destruct D as [R _]. rewrite (chain_hd _ _ _ _ (r_fw _ _ _ _ R)). destruct l1; reflexivity.
    - destruct D as [R _]. rewrite (r_tail _ _ _ _ R). destruct l2 as [|n l2]; [reflexivity|]. cbn [hd_or].
      rewrite last_error_app by discriminate. rewrite (last_error_cons _ a) by discriminate. unfold last_error.
      simpl. destruct (rev l2); reflexivity.
  Qed.

  Lemma dll_insert_before_spec st l1 a l2 ks k : drep st (l1 ++ a :: l2) ks ->
    exists st', dll_insert_before st a k = (st', Ret tt) /\ drep st' (l1 ++ length (l_heap st) :: a :: l2) (ins ks (len l1) k) /\
       length (l_heap st') = S (length (l_heap st)).
  Proof.
    intros D. destruct (drep_cell _ _ _ _ _ D) as (c & Ec & En & Ep).
    unfold dll_insert_before. set (new := length (l_heap st)) in *. rewrite (deref_app _ _ _ _ Ec). rewrite Ep.
    assert (Hlt : forall b, In b (l1 ++ a :: l2) -> (new =? b)%nat = false /\ (b =? new)%nat = false).
    { intros b Hb. destruct D as [R _]. pose proof (rep_lt _ _ _ _ _ R Hb). unfold new. split; apply eqb_ne; lia. }
    assert (Hia : In a (l1 ++ a :: l2)) by (rewrite in_app_iff; simpl; auto).
    destruct (Hlt a Hia) as [Ha1 Ha2].
    set (h1 := set_next _ _ _).
    exists (LL (match last_error l1 with Some p => set_next h1 p (Some new) | None => h1 end)
               (match last_error l1 with Some p => l_head st | None => Some new end) (l_tail st) (l_size st + 1)).
    split; [destruct (last_error l1); reflexivity|].
    split; [|cbn [l_heap]; destruct (last_error l1); unfold h1; rewrite ?len_set_next, ?len_set_prev, app_length; simpl; unfold new; lia].
    pose proof (drep_pv _ _ _ _ _ D) as Hpa.
    eapply dll_insert_core; [exact D|..]; fold new.
    - destruct (last_error l1) as [p|] eqn:El; unfold h1; cbn [hd_or].
      + apply last_error_in in El. destruct El as [l' ->]. destruct (Hlt p) as [E1 E2]; [rewrite !in_app_iff; simpl; auto|].
        repeat (views; rewrite ?E2, ?Ha2); fold new; rewrite ?Nat.eqb_refl; reflexivity.
      + repeat (views; rewrite ?Ha2); fold new; rewrite ?Nat.eqb_refl; reflexivity.
    - intros b Hb. destruct (Hlt b Hb) as [Hb1 Hb2].
      destruct (last_error l1) as [p|] eqn:El; unfold h1; simpl; repeat (views; rewrite ?Hb1, ?Hb2, ?Ha1); fold new; rewrite ?Hb1; [|reflexivity].
      destruct (Nat.eqb_spec p b) as [->|]; [|reflexivity].
      apply last_error_in in El. destruct El as [l' ->]. rewrite <- app_assoc in D. simpl in D. rewrite (drep_nx _ _ _ _ _ D). reflexivity.
    - destruct (last_error l1) as [p|]; unfold h1; repeat (views; rewrite ?Ha2); fold new; rewrite ?Nat.eqb_refl; reflexivity.
    - intros b Hb. destruct (Hlt b Hb) as [Hb1 Hb2]. cbn [hd_error opt_eqb].
      destruct (last_error l1) as [p|] eqn:El; unfold h1; repeat (views; rewrite ?Hb1, ?Hb2); fold new; rewrite ?Hb1;
        (destruct (Nat.eqb_spec a b) as [->|]; [rewrite Hpa; reflexivity|reflexivity]).
    - destruct (last_error l1) as [p|]; unfold h1; repeat views; fold new; rewrite ?Nat.eqb_refl; reflexivity.
    - intros b Hb. destruct (Hlt b Hb) as [Hb1 Hb2]. destruct (last_error l1) as [p|]; unfold h1; repeat views; fold new; rewrite ?Hb1; reflexivity.
    - destruct D as [R _]. rewrite (chain_hd _ _ _ _ (r_fw _ _ _ _ R)).
      destruct (list_snoc_case _ l1) as [->|(l' & x & ->)]; [reflexivity|]. rewrite last_error_snoc. destruct l'; reflexivity.
    - destruct D as [R _]. rewrite (r_tail _ _ _ _ R). rewrite last_error_app by discriminate. unfold last_error. simpl. destruct (rev l2); reflexivity.
  Qed.

  Lemma dll_insert_at_spec fuel st l1 l2 ks k i j :
    drep st (l1 ++ l2) ks -> l1 ++ l2 <> [] -> norm_insert_index (l_size st) i = j -> len l1 = j ->
    (length l1 < fuel)%nat ->
    exists st', dll_insert_at fuel st i k = (st', Ret tt) /\
      drep st' (l1 ++ length (l_heap st) :: l2) (ins ks j k) /\ length (l_heap st') = S (length (l_heap st)).
  Proof.
    intros D Hne Ej Hl Hf. destruct D as [R B] eqn:ED. clear ED.
    unfold dll_insert_at. rewrite Ej.
    pose proof (r_size _ _ _ _ R) as Hs. rewrite len_app in Hs. pose proof (len_nonneg _ l2) as Hl2.
    destruct (Z.ltb_spec (l_size st) j); [lia|].
    assert (Hpos : 1 <= l_size st).
    { rewrite Hs, <- len_app. destruct (l1 ++ l2); [congruence|]. rewrite len_cons. pose proof (len_nonneg _ l). lia. }
    destruct (Z.eqb_spec (l_size st + 1) 1) as [|_]; [lia|].
    set (new := length (l_heap st)). set (h := l_heap st ++ [Cell k None None]).
    assert (Hlt : forall b, In b (l1 ++ l2) -> (new =? b)%nat = false /\ (b =? new)%nat = false).
    { intros b Hb. pose proof (rep_lt _ _ _ _ _ R Hb). unfold new. split; apply eqb_ne; lia. }
    assert (Hch : chain (nx h) (l_head st) (l1 ++ l2) None).
    { eapply chain_ext; [apply (r_fw _ _ _ _ R)|]. intros a Ha. unfold h. rewrite nx_new. fold new. rewrite (proj1 (Hlt a Ha)). reflexivity. }
    destruct (Z.eqb_spec j (l_size st + 1 - 1)) as [Eapp|Enapp].
    - assert (l2 = []) by (destruct l2; [reflexivity|]; rewrite len_cons in *; pose proof (len_nonneg _ l2); lia). subst l2.
      rewrite app_nil_r in *. destruct (list_snoc_case _ l1) as [->|(l' & t & ->)]; [congruence|].
      rewrite (r_tail _ _ _ _ R), last_error_snoc.
      destruct (drep_cell _ _ _ _ _ D) as (c & Ec & En & Ep). unfold h. rewrite (deref_app _ _ _ _ Ec). rewrite En. cbn [hd_or].
      assert (Ht : In t (l' ++ [t])) by (rewrite in_app_iff; simpl; auto). destruct (Hlt t Ht) as [Ht1 Ht2].
      eexists; split; [reflexivity|]. rewrite <- Hl.
      split; [|cbn [l_heap]; rewrite ?len_set_next, ?len_set_prev, app_length; simpl; unfold new; lia].
      assert (D' : drep st ((l' ++ [t]) ++ []) ks) by (rewrite app_nil_r; exact D).
      eapply dll_insert_core; [exact D'|..]; fold new.
      + repeat (views; rewrite ?Ht2); fold new; rewrite ?Nat.eqb_refl; reflexivity.
      + intros b Hb. rewrite app_nil_r in Hb. destruct (Hlt b Hb) as [Hb1 Hb2]. rewrite last_error_snoc. simpl.
        repeat (views; rewrite ?Hb1); fold new; rewrite ?Hb1. destruct (Nat.eqb_spec t b) as [->|]; [|reflexivity].
        rewrite (drep_nx _ _ _ _ _ D). reflexivity.
      + rewrite last_error_snoc. repeat (views; rewrite ?Ht2); fold new; rewrite ?Nat.eqb_refl; reflexivity.
      + intros b Hb. rewrite app_nil_r in Hb. destruct (Hlt b Hb) as [Hb1 Hb2]. simpl. repeat (views; rewrite ?Hb1); fold new; rewrite ?Hb1; reflexivity.
      + repeat views; fold new; rewrite ?Nat.eqb_refl; reflexivity.
      + intros b Hb. rewrite app_nil_r in Hb. destruct (Hlt b Hb) as [Hb1 Hb2]. repeat views; fold new; rewrite ?Hb1; reflexivity.
      + rewrite (chain_hd _ _ _ _ (r_fw _ _ _ _ R)). destruct l'; reflexivity.
      + reflexivity.
    - rewrite <- Hl. rewrite (walk_to_spec h None l1 l2) by assumption.
      assert (Hl2' : l2 <> []) by (intros ->; rewrite len_nil in *; lia).
      destruct l2 as [|n l2]; [congruence|]. cbn [hd_or]. clear Hl2'.
      eexists; split; [reflexivity|].
      destruct (Hlt n) as [Hn1 Hn2]; [rewrite in_app_iff; simpl; auto|].
      split; [|cbn [l_heap]; destruct (last_error l1); rewrite ?len_set_prev, ?len_set_next, ?len_set_prev; unfold h; rewrite app_length; simpl; unfold new; lia].
      pose proof (drep_pv _ _ _ _ _ D) as Hpn.
      eapply dll_insert_core; [exact D|..]; fold new; unfold h.
      + cbn [hd_or]. destruct (last_error l1) as [p|] eqn:El.
        * apply last_error_in in El. destruct El as [l' ->]. destruct (Hlt p) as [E1 E2]; [rewrite !in_app_iff; simpl; auto|].
          repeat (views; rewrite ?E2); fold new; rewrite ?Nat.eqb_refl; reflexivity.
        * repeat views; fold new; rewrite ?Nat.eqb_refl; reflexivity.
      + intros b Hb. destruct (Hlt b Hb) as [Hb1 Hb2]. destruct (last_error l1) as [p|] eqn:El; simpl; repeat (views; rewrite ?Hb1); fold new; rewrite ?Hb1; [|reflexivity].
        destruct (Nat.eqb_spec p b) as [->|]; [|reflexivity]. apply last_error_in in El. destruct El as [l' ->].
        rewrite <- app_assoc in D. simpl in D. rewrite (drep_nx _ _ _ _ _ D). reflexivity.
      + destruct (last_error l1) as [p|] eqn:El; repeat (views; rewrite ?Hn2); fold new; rewrite ?Nat.eqb_refl; reflexivity.
      + intros b Hb. destruct (Hlt b Hb) as [Hb1 Hb2]. cbn [hd_error opt_eqb].
        destruct (last_error l1) as [p|] eqn:El; repeat (views; rewrite ?Hb1); fold new; rewrite ?Hb1;
        (destruct (Nat.eqb_spec n b) as [->|]; [rewrite Hpn; reflexivity|reflexivity]).
      + destruct (last_error l1) as [p|]; repeat views; fold new; rewrite ?Nat.eqb_refl; reflexivity.
      + intros b Hb. destruct (Hlt b Hb) as [Hb1 Hb2]. destruct (last_error l1) as [p|]; repeat views; fold new; rewrite ?Hb1; reflexivity.
      + rewrite (chain_hd _ _ _ _ (r_fw _ _ _ _ R)).
        destruct (list_snoc_case _ l1) as [->|(l' & x & ->)]; [reflexivity|]. rewrite last_error_snoc. destruct l'; reflexivity.
      + rewrite (r_tail _ _ _ _ R). rewrite last_error_app by discriminate. unfold last_error. simpl. destruct (rev l2); reflexivity.
  Qed.

  Lemma dll_extract_spec fuel st l1 a l2 ks i j :
    drep st (l1 ++ a :: l2) ks -> (if i <? 0 then l_size st + i else i) = j -> len l1 = j ->
    (length l1 < fuel)%nat ->
    exists st' k, dll_extract fuel st i = (st', Ret a) /\ nth_error ks (Z.to_nat j) = Some k /\ ky (l_heap st') a = Some k /\
      drep st' (l1 ++ l2) (del ks j).
  Proof.
    intros D Ej Hl Hf. pose proof D as [R B].
    destruct (sll_extract_spec fuel st l1 a l2 None ks i j R Ej Hl Hf) as (s1 & k & Es & Hk & Hka & Hhd & R1 & _).
    destruct (drep_cell _ _ _ _ _ D) as (c & Ec & En & Ep).
    unfold sll_extract in Es. unfold dll_extract.
    pose proof (r_size _ _ _ _ R) as Hs. rewrite len_app, len_cons in Hs. pose proof (len_nonneg _ l2) as Hl2. pose proof (len_nonneg _ l1) as Hl1.
    destruct (Z.eqb_spec (l_size st) 0) as [|_]; [lia|]. rewrite Ej in *. destruct (Z.leb_spec (l_size st) j); [lia|].
    assert (Hw : walk_to fuel (l_heap st) (l_head st) j = Ret (last_error l1, Some a)).
    { rewrite <- Hl. rewrite (walk_to_spec _ None l1 (a :: l2)) by (try assumption; apply (r_fw _ _ _ _ R)). reflexivity. }
    rewrite Hw in Es |- *. rewrite (deref_some _ _ _ Ec) in Es |- *. rewrite En in *.
    assert (Hpc : match nth_error match hd_or l2 None with Some n => set_prev (match last_error l1 with Some p => set_next (l_heap st) p (hd_or l2 None) | None => l_heap st end) n (last_error l1) | None => match last_error l1 with Some p => set_next (l_heap st) p (hd_or l2 None) | None => l_heap st end end a with Some c2 => c_prev c2 | None => None end = last_error l1).
    { match goal with |- match nth_error ?H _ with _ => _ end = _ => assert (X : pv H a = Some (last_error l1)) end.
      { destruct l2 as [|n l2]; cbn [hd_or]; [|rewrite pv_set_prev, eqb_ne by (intros ->; pose proof (r_nd _ _ _ _ R) as ND; apply NoDup_app_r in ND; inversion ND as [|? ? H1 _]; apply H1; left; reflexivity)];
          (destruct (last_error l1) eqn:El; rewrite ?pv_set_next, <- El; eapply drep_pv; exact D). }
      unfold pv in X. match goal with |- match nth_error ?H _ with _ => _ end = _ => destruct (nth_error H a); [injection X as X; exact X|discriminate] end. }
    rewrite Hpc. rewrite ?Ep in *.
    inversion Es; subst s1; clear Es. cbn [l_heap l_head l_tail l_size] in *.
    eexists; exists k. split; [reflexivity|]. split; [exact Hk|]. cbn [l_heap].
    assert (Hkey : forall b, ky match hd_or l2 None with Some n => set_prev (match last_error l1 with Some p => set_next (l_heap st) p (hd_or l2 None) | None => l_heap st end) n (last_error l1) | None => match last_error l1 with Some p => set_next (l_heap st) p (hd_or l2 None) | None => l_heap st end end b = ky match last_error l1 with Some p => set_next (l_heap st) p (hd_or l2 None) | None => l_heap st end b).
    { intros b. destruct (hd_or l2 None); [apply ky_set_prev|reflexivity]. }
    split; [rewrite Hkey; exact Hka|].
    split.
    - destruct R1 as [N1 C1 T1 S1 F1]. constructor; cbn [l_heap l_head l_tail l_size] in *; auto.
      + eapply chain_ext; [exact C1|]. intros b _. destruct (hd_or l2 None); [apply nx_set_prev|reflexivity].
      + eapply Forall2_imp; [|exact F1]. intros b k' Hb; cbv beta in *. rewrite Hkey. exact Hb.
    - cbn [l_heap l_tail]. rewrite rev_app_distr. rewrite rev_app_distr in B. simpl in B. rewrite <- app_assoc in B.
      replace (if j =? l_size st - 1 then last_error l1 else l_tail st) with (hd_or (rev l2) (hd_or (rev l1) None)).
      + eapply (chain_remove (pv (l_heap st))); [exact B| | |].
        * replace (rev l2 ++ a :: rev l1) with (rev (l1 ++ a :: l2)); [apply NoDup_rev; apply (r_nd _ _ _ _ R)|].
          rewrite rev_app_distr. simpl. rewrite <- app_assoc. reflexivity.
        * intros b Hb Hlb. rewrite last_rev in Hlb. destruct l2 as [|n l2]; cbn [hd_or hd_error] in *.
          -- destruct (last_error l1); views; reflexivity.
          -- rewrite pv_set_prev, eqb_ne by congruence. destruct (last_error l1); views; reflexivity.
        * intros pr E. rewrite last_rev in E. destruct l2 as [|n l2]; [discriminate|]. inversion E; subst pr. cbn [hd_or].
          rewrite pv_set_prev, Nat.eqb_refl, hd_or_rev.
          assert (Hpn : pv (l_heap st) n = Some (last_error (l1 ++ [a]))).
          { eapply drep_pv with (l2 := l2). rewrite <- app_assoc. exact D. }
          destruct (last_error l1); views; rewrite Hpn; reflexivity.
      + rewrite hd_or_rev. rewrite (r_tail _ _ _ _ R). destruct l2 as [|b l2].
        * rewrite len_nil in Hs. destruct (Z.eqb_spec j (l_size st - 1)); [reflexivity|lia].
        * rewrite len_cons in Hs. pose proof (len_nonneg _ l2). destruct (Z.eqb_spec j (l_size st - 1)); [lia|].
          rewrite !last_error_app by discriminate. rewrite (last_error_cons _ a) by discriminate. unfold last_error. simpl. destruct (rev l2); reflexivity.
  Qed.

  Lemma dll_ins_sim st ps ks i k ks' r :
    drep st ps ks -> spec_insert ks i k = Some (ks', r) ->
    exists st' ps', (let (s, x) := dll_insert_at (S (S (length (l_heap st)))) st i k in (s, out_unit x)) = (st', r) /\ drep st' ps' ks'.
  Proof.
    intros D H. pose proof (proj1 D) as R. pose proof (rep_len _ _ _ _ R) as El. pose proof (r_size _ _ _ _ R) as Es. pose proof (len_nonneg _ ks) as Hn.
    unfold spec_insert in H. rewrite <- (norm_index_spec (len ks) i) in H by assumption.
    remember (norm_insert_index (len ks) i) as j eqn:Ej. symmetry in Ej.
    destruct (Z.ltb_spec (len ks) j).
    { injection H as <- <-. exists st, ps. unfold dll_insert_at. rewrite Es, El, Ej.
      destruct (Z.ltb_spec (len ks) j); [|lia]. auto. }
    destruct (Z.ltb_spec j 0); [discriminate|]. inversion H; subst ks' r.
    destruct ps as [|p0 ps0].
    - rewrite len_nil in El. rewrite <- El in *. rewrite len_nil in Es.
      assert (ks = []) by (destruct ks; [reflexivity|]; rewrite len_cons in El; pose proof (len_nonneg _ ks); lia). subst ks.
      unfold dll_insert_at. rewrite Es, Ej. destruct (Z.ltb_spec 0 j); [lia|]. change (0 + 1 =? 1) with true.
      eexists; exists [length (l_heap st)]. split; [reflexivity|].
      replace (ins [] j k) with [k] by (unfold ins; rewrite firstn_nil, skipn_nil; reflexivity). split; [apply rep_first|].
      simpl. split; [reflexivity|]. exists None. rewrite pv_new, Nat.eqb_refl. auto.
    - destruct (split_at (p0 :: ps0) j) as (l1 & l2 & Eps & Hl & _ & _); [lia|].
      rewrite Eps in *. pose proof (rep_size_heap _ _ _ _ R) as Hh. rewrite app_length in Hh.
      destruct (dll_insert_at_spec (S (S (length (l_heap st)))) st l1 l2 ks k i j D) as (st' & E & R' & _).
      + rewrite <- Eps; discriminate.
      + rewrite Es, El; exact Ej.
      + exact Hl.
      + lia.
      + rewrite E. eexists; eexists; split; [reflexivity|exact R'].
  Qed.

  Lemma dll_ext_sim st ps ks i ks' r :
    drep st ps ks -> spec_extract ks i = Some (ks', r) ->
    exists st' ps', (let (s, x) := dll_extract (S (S (length (l_heap st)))) st i in (s, out_node s x)) = (st', r) /\ drep st' ps' ks'.
  Proof.
    intros D H. pose proof (proj1 D) as R. pose proof (rep_len _ _ _ _ R) as El. pose proof (r_size _ _ _ _ R) as Es. pose proof (len_nonneg _ ks) as Hn.
    unfold spec_extract in H. remember (if i <? 0 then len ks + i else i) as j eqn:Ej. symmetry in Ej.
    destruct (Z.eqb_spec (len ks) 0).
    { injection H as <- <-. exists st, ps. unfold dll_extract. rewrite Es, El. destruct (Z.eqb_spec (len ks) 0); [auto|lia]. }
    destruct (Z.leb_spec (len ks) j).
    { injection H as <- <-. exists st, ps. unfold dll_extract. rewrite Es, El. destruct (Z.eqb_spec (len ks) 0); [lia|].
      destruct (Z.leb_spec (len ks) (if i <? 0 then len ks + i else i)); [auto|lia]. }
    destruct (Z.ltb_spec j 0); [discriminate|].
    destruct (split_elem _ _ _ _ j R) as (l1 & a & l2 & k & -> & Hl & Hk & _ & Hlt); [lia|].
    rewrite Hk in H. inversion H; subst ks' r.
    pose proof (rep_size_heap _ _ _ _ R) as Hh.
    destruct (dll_extract_spec (S (S (length (l_heap st)))) st l1 a l2 ks i j D) as (st' & k' & E & Hk' & Hka & R').
    + rewrite Es, El. exact Ej.
    + exact Hl.
    + lia.
    + rewrite E. exists st', (l1 ++ l2). split; [|exact R']. unfold out_node. rewrite Hka. congruence.
  Qed.

  Lemma dll_op_sim st ps ks o ks' r : drep st ps ks -> spec_op ks o = Some (ks', r) ->
    exists st' ps', cls_op DLL st o = (st', r) /\ drep st' ps' ks'.
  Proof.
    intros D H. pose proof (proj1 D) as R. pose proof (rep_len _ _ _ _ R) as El. pose proof (r_size _ _ _ _ R) as Es. pose proof (len_nonneg _ ks) as Hn.
    destruct o as [i k|i k|i k|i|k|k| | |i]; cbn [spec_op cls_op DLL k_insert_at k_insert_after k_insert_before k_extract] in *.
    - eapply dll_ins_sim; eauto.
    - unfold spec_insert_rel in H. unfold with_node.
      destruct (Z.leb_spec (len ks) (if i <? 0 then len ks + i else i)).
      { inversion H; subst. erewrite getitem_err by eauto. eauto. }
      destruct (Z.ltb_spec (if i <? 0 then len ks + i else i) 0); [discriminate|].
      destruct (split_elem _ _ _ _ (if i <? 0 then len ks + i else i) R) as (l1 & a & l2 & k' & -> & Hl & Hk & Hka & Hlt); [lia|].
      pose proof (rep_size_heap _ _ _ _ R) as Hh.
      rewrite (getitem_spec _ st l1 a l2 None ks); [|exact R|rewrite Es, El; symmetry; exact Hl|lia].
      destruct (dll_insert_after_spec st l1 a l2 ks k D) as (st' & E & D' & _). rewrite E.
      inversion H; subst. rewrite Hl in D'. eauto.
    - unfold spec_insert_rel in H. unfold with_node.
      destruct (Z.leb_spec (len ks) (if i <? 0 then len ks + i else i)).
      { inversion H; subst. erewrite getitem_err by eauto. eauto. }
      destruct (Z.ltb_spec (if i <? 0 then len ks + i else i) 0); [discriminate|].
      destruct (split_elem _ _ _ _ (if i <? 0 then len ks + i else i) R) as (l1 & a & l2 & k' & -> & Hl & Hk & Hka & Hlt); [lia|].
      pose proof (rep_size_heap _ _ _ _ R) as Hh.
      rewrite (getitem_spec _ st l1 a l2 None ks); [|exact R|rewrite Es, El; symmetry; exact Hl|lia].
      destruct (dll_insert_before_spec st l1 a l2 ks k D) as (st' & E & D' & _). rewrite E.
      inversion H; subst. rewrite Hl in D'. rewrite Z.add_0_r. eauto.
    - eapply dll_ext_sim; eauto.
    - eapply dll_ins_sim; [exact D|]. rewrite Es, El. inversion H; subst.
      unfold spec_insert. replace ((len ks =? 0) && (len ks =? -1)) with false by (destruct (Z.eqb_spec (len ks) (-1)); [lia|rewrite andb_false_r; reflexivity]).
      destruct (Z.ltb_spec (len ks) 0); [lia|]. rewrite Z.ltb_irrefl. destruct (Z.ltb_spec (len ks) 0); [lia|].
      unfold ins, len. rewrite Nat2Z.id, firstn_all, skipn_all. reflexivity.
    - eapply dll_ins_sim; [exact D|]. inversion H; subst. unfold spec_insert.
      rewrite andb_false_r. simpl. destruct (Z.ltb_spec (len ks) 0); [lia|]. reflexivity.
    - eapply dll_ext_sim; eauto.
    - eapply dll_ext_sim; eauto.
    - destruct (get_sim _ _ _ _ _ _ _ R H) as [-> E]. rewrite E. eauto.
  Qed.

  Lemma dll_run_sim ops : forall st ps ks ks' rs, drep st ps ks -> spec_ops ops ks = Some (ks', rs) ->
    exists st' ps', cls_run DLL ops st = (st', rs) /\ drep st' ps' ks'.
  Proof.
    induction ops as [|o ops IH]; intros st ps ks ks' rs R H; simpl in *.
    - inversion H; subst. eauto.
    - destruct (spec_op ks o) as [[l1 r]|] eqn:E1; [|discriminate].
      destruct (spec_ops ops l1) as [[l2 rs']|] eqn:E2; [|discriminate]. inversion H; subst.
      destruct (dll_op_sim _ _ _ _ _ _ R E1) as (s1 & p1 & -> & R1).
      destruct (IH _ _ _ _ _ R1 E2) as (s2 & p2 & -> & R2). eauto.
  Qed.

  Lemma dll_history ops ks rs : spec_ops ops [] = Some (ks, rs) ->
    exists st, cls_run DLL ops (ll_new K) = (st, rs) /\ keys_from c_next st (l_head st) = ks /\
      keys_from c_prev st (l_tail st) = rev ks /\ l_size st = len ks.
  Proof.
    intros H. destruct (dll_run_sim ops (ll_new K) [] _ _ _ (conj rep_new eq_refl) H) as (st & ps & E & R & B).
    pose proof (rep_size_heap _ _ _ _ R).
    exists st. split; [exact E|]. split; [|split].
    - unfold keys_from. eapply follow_rep; [apply (r_fw _ _ _ _ R)|apply (r_keys _ _ _ _ R)|]. lia.
    - unfold keys_from. eapply follow_rep; [exact B| |rewrite rev_length; lia].
      apply Forall2_rev. apply (r_keys _ _ _ _ R).
    - rewrite (r_size _ _ _ _ R). eapply rep_len; eauto.
  Qed.
End Run.
