(** Proofs about the C++ arrays and ArrayStack. *)
From Verif Require Import Base ArraysModel ArraysProofs StackQueueModel StackQueueSpec StackQueueProofs CppArrayModel CppArraySpec.

Section OdaProofs.
  Context {A : Type} (same : A -> A -> bool) (isinst : A -> bool).
  Hypothesis same_eq : forall x y, same x y = true <-> x = y.

  Lemma storable_b e : storableb isinst e = true <-> storable isinst e.
  Proof. destruct e; cbn; tauto. Qed.
  Lemma mismatch_b e : mismatch isinst e = negb (storableb isinst e).
  Proof. destruct e; reflexivity. Qed.

  Notation occ := (occurrences same).
  Definition one (x : A) (e : option A) : Z := match e with Some y => if same y x then 1 else 0 | None => 0 end.
  Lemma occ_cons x e l : occ x (e :: l) = one x e + occ x l.
  Proof. unfold occurrences, one. cbn [filter]. destruct e as [y|]; [destruct (same y x)|]; rewrite ?len_cons; lia. Qed.
  Lemma occ_app x l1 l2 : occ x (l1 ++ l2) = occ x l1 + occ x l2.
  Proof. unfold occurrences. rewrite filter_app, len_app. lia. Qed.
  Lemma occ_nonneg x l : 0 <= occ x l.
  Proof. apply len_nonneg. Qed.
  Lemma occ_upd x (l : list (option A)) n e old : nth_error l n = Some old -> occ x (upd l n e) = occ x l + one x e - one x old.
  Proof.
    revert n. induction l as [|a l IH]; intros [|n] H; cbn in *; try discriminate.
    - injection H as ->. rewrite !occ_cons. lia.
    - rewrite !occ_cons. rewrite (IH _ H). lia.
  Qed.
  Lemma addref_at rc e d x : addref same rc e d x = rc x + d * one x e.
  Proof. unfold addref, one. destruct e as [y|]; [destruct (same y x)|]; lia. Qed.

  Lemma fill_loop e (data : list (option A)) : forall acc rc, exists rc',
    fold_left (fun '(d, rc) old => (d ++ [e], addref same (addref same rc e 1) old (-1))) data (acc, rc) = (acc ++ repeat e (length data), rc') /\
    forall x, rc' x = rc x + len data * one x e - occ x data.
  Proof.
    induction data as [|old data IH]; intros acc rc; cbn [fold_left length repeat].
    - exists rc. rewrite app_nil_r. split; [reflexivity|]. intros x. unfold occurrences. cbn. lia.
    - destruct (IH (acc ++ [e]) (addref same (addref same rc e 1) old (-1))) as (rc' & E & H). exists rc'. rewrite E. rewrite <- app_assoc. split; [reflexivity|].
      intros x. rewrite H, !addref_at, occ_cons, len_cons. lia.
  Qed.
  Lemma occ_repeat x e n : occ x (repeat e n) = Z.of_nat n * one x e.
  Proof. induction n as [|n IH]; [reflexivity|]. cbn [repeat]. rewrite occ_cons, IH. lia. Qed.

  (** the array has [n] cells [f], all storable, and every cell has its own reference *)
  Record cok (n : Z) (f : Z -> option A) (s : coda A * (A -> Z)) : Prop := {
    ck_len : len (ca_data (fst s)) = n;
    ck_cells : forall i, 0 <= i < n -> nth_error (ca_data (fst s)) (Z.to_nat i) = Some (f i);
    ck_store : Forall (storable isinst) (ca_data (fst s));
    ck_ext : forall x, 0 <= snd s x;
    ck_rc : forall x, occ x (ca_data (fst s)) + snd s x <= ca_rc (fst s) x }.

  Lemma nth_upd_ne V (l : list V) n m v : n <> m -> nth_error (upd l n v) m = nth_error l m.
  Proof. revert n m. induction l as [|a l IH]; intros [|n] [|m] H; cbn; try reflexivity; [congruence|]. apply IH. congruence. Qed.
  Lemma nth_upd_eq V (l : list V) n v w : nth_error l n = Some w -> nth_error (upd l n v) n = Some v.
  Proof. revert n. induction l as [|a l IH]; intros [|n] H; cbn in *; try discriminate; [reflexivity|]. apply IH. exact H. Qed.
  Lemma Forall_upd V (P : V -> Prop) l n v : Forall P l -> P v -> Forall P (upd l n v).
  Proof. intros F H. revert n. induction F; intros [|n]; cbn; constructor; auto. Qed.
  Lemma one_eq x y : one x (Some y) = if same y x then 1 else 0. Proof. reflexivity. Qed.

  Lemma cstep n f s o : cok n f s -> exists s', coda_step same isinst s o = (s', snd (cells_step isinst n f o)) /\ cok n (fst (cells_step isinst n f o)) s'.
  Proof.
    intros C. destruct s as [[data rc] ext]. destruct C as [L N S X R]. cbn [fst snd ca_data ca_rc] in *. unfold coda_step. cbn [ca_data ca_rc].
    assert (RG : forall i, (i <? 0) || (len data <=? i) = negb ((0 <=? i) && (i <? n))).
    { intros i. rewrite L. destruct (Z.ltb_spec i 0), (Z.leb_spec n i), (Z.leb_spec 0 i), (Z.ltb_spec i n); cbn; lia || reflexivity. }
    destruct o as [i|i e|e| |x]; cbn [cells_step].
    - rewrite RG. destruct ((0 <=? i) && (i <? n)) eqn:B; cbn [negb].
      + apply andb_true_iff in B as [B1 B2]. apply Z.leb_le in B1. apply Z.ltb_lt in B2. rewrite (N i) by lia. eexists. split; [reflexivity|].
        constructor; cbn [fst snd ca_data ca_rc]; auto; intros y; specialize (X y); specialize (R y); rewrite !addref_at; unfold one; destruct (f i) as [z|]; [destruct (same z y)| |destruct (same z y)|]; lia.
      + eexists. split; [reflexivity|]. constructor; auto.
    - rewrite RG. destruct ((0 <=? i) && (i <? n)) eqn:B; cbn [negb].
      + apply andb_true_iff in B as [B1 B2]. apply Z.leb_le in B1. apply Z.ltb_lt in B2. rewrite mismatch_b. destruct (storableb isinst e) eqn:SE; cbn [negb]; [|eexists; split; [reflexivity|]; constructor; auto].
        apply storable_b in SE. assert (NI := N i (conj B1 B2)). rewrite NI. eexists. split; [reflexivity|]. constructor; cbn [fst snd ca_data ca_rc]; auto.
        * rewrite len_upd. exact L.
        * intros j Hj. destruct (Z.eqb_spec j i) as [->|Ne]; [eapply nth_upd_eq; exact NI|]. rewrite nth_upd_ne by lia. apply N. exact Hj.
        * apply Forall_upd; assumption.
        * intros y. rewrite (occ_upd _ _ _ _ _ NI), !addref_at. specialize (R y). lia.
      + eexists. split; [reflexivity|]. constructor; auto.
    - rewrite mismatch_b. destruct (storableb isinst e) eqn:SE; cbn [negb]; [|eexists; split; [reflexivity|]; constructor; auto]. apply storable_b in SE.
      destruct (fill_loop e data [] rc) as (rc' & E & H). rewrite E. eexists. split; [reflexivity|]. constructor; cbn [fst snd ca_data ca_rc app]; auto.
      + unfold len in *. rewrite repeat_length. exact L.
      + intros i Hi. apply nth_error_repeat. unfold len in L. lia.
      + apply Forall_forall. intros y Hy. apply repeat_spec in Hy. subst y. exact SE.
      + intros y. rewrite H, occ_repeat. specialize (R y). unfold len. lia.
    - eexists. split; [rewrite L; reflexivity|]. constructor; auto.
    - destruct (Z.ltb_spec 0 (ext x)) as [Hx|Hx]; (eexists; split; [reflexivity|]); constructor; cbn [fst snd ca_data ca_rc]; auto.
      + intros y. rewrite addref_at, one_eq. specialize (X y). destruct (same x y) eqn:E; [apply same_eq in E; subst; lia|lia].
      + intros y. rewrite !addref_at. specialize (R y). lia.
  Qed.
  Lemma crun ops : forall n f s, cok n f s -> exists s', coda_run same isinst ops s = (s', snd (cells_run isinst n ops f)) /\ cok n (fst (cells_run isinst n ops f)) s'.
  Proof.
    induction ops as [|o ops IH]; intros n f s C; cbn [coda_run cells_run]; [exists s; auto|].
    destruct (cstep n f s o C) as (s1 & E & C1). rewrite E. destruct (cells_step isinst n f o) as [f1 r] eqn:E1. cbn [fst snd] in *.
    destruct (IH n f1 s1 C1) as (s2 & E2 & C2). rewrite E2. destruct (cells_run isinst n ops f1) as [f2 rs] eqn:E3. cbn [fst snd] in *. exists s2. auto.
  Qed.

  (** the start: built from a list, or of a given size and filled with None *)
  Lemma new_list_loop l : forall data rc st, cpp_new_list_loop same isinst l data rc = Ret st ->
    ca_data st = data ++ l /\ Forall (fun e => exists x, e = Some x /\ isinst x = true) l /\ forall x, ca_rc st x = rc x + occ x l.
  Proof.
    induction l as [|e l IH]; intros data rc st H; cbn [cpp_new_list_loop] in H.
    - injection H as <-. cbn. rewrite app_nil_r. split; [reflexivity|]. split; [constructor|]. intros x. unfold occurrences. cbn. lia.
    - destruct e as [x|]; [|discriminate]. destruct (isinst x) eqn:E; [|discriminate]. destruct (IH _ _ _ H) as (D & F & R). rewrite D, <- app_assoc. split; [reflexivity|]. split; [constructor; eauto|].
      intros y. rewrite R, addref_at, occ_cons. lia.
  Qed.
  Lemma new_list_ret l rc data : Forall (fun e => exists x, e = Some x /\ isinst x = true) l -> exists st, cpp_new_list_loop same isinst l data rc = Ret st.
  Proof. intros F. revert rc data. induction F as [|e l (x & -> & E) F IH]; intros rc data; cbn [cpp_new_list_loop]; [eauto|]. rewrite E. apply IH. Qed.
End OdaProofs.

(** ** DynamicOneDimensionalArray: the C++ code does what the Python code does *)
Section DodaProofs.
  Context {A : Type}.
  Definition emb (d : doda A) : cdoda A := Cdoda (d_data d) (d_size d) (d_size d) (d_num d) (d_last d) (d_ln d) (d_ld d).

  Lemma forM_same B S (P : S -> Prop) (b1 b2 : B -> S -> res S) l : forall s r,
    (forall x s s', In x l -> P s -> b1 x s = Ret s' -> b2 x s = Ret s' /\ P s') -> P s -> forM l b1 s = Ret r -> forM l b2 s = Ret r.
  Proof.
    induction l as [|x l IH]; intros s r H Hs E; cbn [forM] in *; [exact E|]. destruct (b1 x s) as [s1| |] eqn:E1; cbn [bind] in *; try discriminate.
    destruct (H x s s1 (or_introl eq_refl) Hs E1) as [E2 P2]. rewrite E2. cbn [bind]. apply IH; auto. intros y s0 s' Hy. apply H. right. exact Hy.
  Qed.
  Lemma raw_aget (b : list (option A)) i x : aget b i = Ret x -> rawget b i = Ret x.
  Proof. unfold aget, rawget. destruct ((i <? 0) || (len b <=? i)); [discriminate|]. destruct (nth_error b (Z.to_nat i)); [exact (fun H => H)|discriminate]. Qed.
  Lemma raw_lget (b : list (option A)) i x : 0 <= i -> lget b i = Ret x -> rawget b i = Ret x.
  Proof. intros Hi. unfold lget. destruct (Z.ltb_spec i 0); [lia|]. apply raw_aget. Qed.
  Lemma raw_aset (b : list (option A)) i x b' : 0 <= i -> aset b i x = Ret b' -> rawset b i x = Ret b'.
  Proof. intros Hi. unfold aset, rawset. destruct (Z.ltb_spec i 0); [lia|]. destruct (Z.ltb_spec i 0); [lia|]. cbn [orb]. destruct (len b <=? i); [discriminate|]. exact (fun H => H). Qed.
  Lemma zrange_ge lo hi x : In x (zrange lo hi) -> lo <= x.
  Proof. unfold zrange. intros H. apply in_map_iff in H as (k & <- & _). lia. Qed.

  Lemma modify_eq d d' : 0 <= d_size d -> doda_modify d = Ret d' -> cpp_modify (emb d) = Ret (emb d').
  Proof.
    intros Hs H. unfold doda_modify in H. unfold cpp_modify. cbn [emb c_asize c_num c_ld c_ln c_last c_buf].
    destruct (Z.eqb_spec (d_size d) 0); [discriminate|]. destruct (Z.ltb_spec 0 (d_size d)); [|lia]. cbn [andb].
    destruct (d_num d * d_ld d <? d_ln d * d_size d).
    - destruct (doda_compact d) as [[arr j]| |] eqn:E; cbn [bind] in H; try discriminate. injection H as <-.
      unfold doda_compact in E. assert (E2 := E).
      eapply (forM_same _ _ (fun s => 0 <= snd s)) in E2.
      + rewrite E2. cbn [bind]. reflexivity.
      + cbn beta. intros i [a0 j0] s' Hi HP HB. apply zrange_ge in Hi. cbn [snd] in HP. destruct (lget (d_data d) i) as [x| |] eqn:EL; cbn [bind] in HB; try discriminate.
        rewrite (raw_lget _ _ _ Hi EL). cbn [bind]. destruct x as [v|]; [|injection HB as <-; auto].
        destruct (aget (d_data d) i) as [y| |] eqn:EG; cbn [bind] in HB |- *; try discriminate. destruct (aset a0 j0 y) as [a1| |] eqn:ES; cbn [bind] in HB; try discriminate. injection HB as <-.
        assert (EY : Some v = y). { assert (X := raw_aget _ _ _ EG). rewrite (raw_lget _ _ _ Hi EL) in X. injection X as ->. reflexivity. }
        rewrite EY. cbn [bind]. rewrite (raw_aset _ _ _ _ HP ES). cbn [bind snd]. split; [reflexivity|lia].
      + cbn. lia.
    - injection H as <-. reflexivity.
  Qed.
  Lemma append_eq d x d' : doda_inv d -> doda_append d x = Ret d' -> cpp_append (emb d) (Some x) = Ret (emb d').
  Proof.
    intros I H. assert (Hsz := di_size _ I). assert (Hls : -1 <= d_last d) by (pose proof (di_last _ I); lia). assert (Hl0 : 0 <= d_last d + 1) by lia.
    unfold doda_append in H. unfold cpp_append. cbn [emb c_asize c_size c_num c_ld c_ln c_last c_buf].
    destruct (d_last d + 1 =? d_size d).
    - destruct (forM _ _ _) as [arr| |] eqn:E in H; cbn [bind] in H; try discriminate.
      eapply (forM_same _ _ (fun _ => True) _ (fun i arr => x0 <- rawget (d_data d) i ;; rawset arr i x0)) in E; [|..].
      + rewrite E. cbn [bind]. destruct (aset arr (d_last d + 1) (Some x)) as [arr'| |] eqn:E2; cbn [bind] in H; try discriminate.
        rewrite (raw_aset _ _ _ _ Hl0 E2). cbn [bind c_asize c_size c_num c_ld c_ln c_last c_buf d_data d_size d_num d_last d_ln d_ld] in *.
        pose proof (len_nonneg _ (d_data d)). eapply modify_eq in H; [|cbn [d_size]; lia]. exact H.
      + cbn beta. intros i a0 s' Hi _ HB. apply zrange_ge in Hi. destruct (aget (d_data d) i) as [y| |] eqn:EG; cbn [bind] in HB; try discriminate. rewrite (raw_aget _ _ _ EG). cbn [bind]. rewrite (raw_aset _ _ _ _ Hi HB). auto.
      + exact Logic.I.
    - cbn [bind] in H. destruct (aset (d_data d) (d_last d + 1) (Some x)) as [arr'| |] eqn:E2; cbn [bind] in H; try discriminate.
      rewrite (raw_aset _ _ _ _ Hl0 E2). cbn [bind c_asize c_size c_num c_ld c_ln c_last c_buf d_data d_size d_num d_last d_ln d_ld] in *.
      pose proof (len_nonneg _ (d_data d)). eapply modify_eq in H; [|cbn [d_size]; lia]. exact H.
  Qed.
  Lemma delete_eq d i d' : doda_inv d -> doda_delete d i = Ret d' -> cpp_delete (emb d) i = Ret (emb d').
  Proof.
    intros I H. assert (Hsz := di_size _ I). unfold doda_delete in H. unfold cpp_delete. cbn [emb c_asize c_size c_num c_ld c_ln c_last c_buf].
    destruct ((i <=? d_last d) && (0 <=? i)) eqn:B; [|injection H as <-; reflexivity]. apply andb_true_iff in B as [_ B]. apply Z.leb_le in B.
    destruct (aget (d_data d) i) as [y| |] eqn:EG; cbn [bind] in H; try discriminate. rewrite (raw_aget _ _ _ EG). cbn [bind]. destruct y as [v|]; [|injection H as <-; reflexivity].
    destruct (aset (d_data d) i None) as [b| |] eqn:ES; cbn [bind] in H; try discriminate. rewrite (raw_aset _ _ _ _ B ES). cbn [bind]. pose proof (len_nonneg _ (d_data d)).
    eapply modify_eq in H; [|cbn [d_size]; lia]. exact H.
  Qed.
  Lemma get_eq d i : doda_inv d -> cpp_get (emb d) i = doda_get d i.
  Proof.
    intros I. assert (Hsz := di_size _ I). unfold cpp_get, doda_get. cbn [emb c_asize c_buf]. destruct (Z.ltb_spec i 0), (Z.leb_spec (d_size d) i); cbn [orb]; try reflexivity.
    unfold lget, aget, rawget. destruct (Z.ltb_spec i 0); [lia|]. destruct (Z.ltb_spec i 0); [lia|]. destruct (Z.leb_spec (len (d_data d)) i); [lia|]. cbn [orb].
    destruct (nth_error (d_data d) (Z.to_nat i)) eqn:E; [reflexivity|]. apply nth_error_None in E. unfold len in *. lia.
  Qed.
  Definition cpp_op (o : doda_op A) : cdoda_op A := match o with DAppend x => CDAppend (Some x) | DDelete i => CDDelete i end.
  Lemma step_eq d o : doda_inv d -> exists d', doda_step d o = Ret d' /\ doda_inv d' /\ cdoda_step (emb d) (cpp_op o) = Ret (emb d').
  Proof.
    intros I. destruct (doda_run_spec [o] d I) as (d' & E & I' & _). cbn [doda_run forM] in E. unfold doda_run in E. cbn [forM] in E.
    destruct (doda_step d o) as [d1| |] eqn:E1; cbn [bind] in E; try discriminate. injection E as ->. exists d'. split; [reflexivity|]. split; [exact I'|].
    destruct o as [x|i]; cbn [doda_step cdoda_step cpp_op] in *; [apply append_eq|apply delete_eq]; assumption.
  Qed.
  Lemma run_eq ops : forall d, doda_inv d -> exists d', doda_run ops d = Ret d' /\ doda_inv d' /\ cdoda_run (map cpp_op ops) (emb d) = Ret (emb d').
  Proof.
    unfold doda_run, cdoda_run. induction ops as [|o ops IH]; intros d I; cbn [forM map]; [eauto|]. destruct (step_eq d o I) as (d1 & E & I1 & E'). rewrite E, E'. cbn [bind]. apply IH. exact I1.
  Qed.
  Lemma new_eq_list l ln ld : cpp_doda_new (map Some l) ln ld = emb (doda_new_list l ln ld).
  Proof.
    unfold cpp_doda_new, emb, doda_new_list. cbn [d_data d_size d_num d_last d_ln d_ld]. assert (L : len (map Some l) = len l) by (unfold len; rewrite map_length; reflexivity). rewrite L.
    destruct l; reflexivity.
  Qed.
  Lemma new_eq_size n ln ld : 0 <= n -> cpp_doda_new (repeat None (Z.to_nat n)) ln ld = emb (@doda_new_size A n ln ld).
  Proof.
    intros Hn. unfold cpp_doda_new, emb, doda_new_size. cbn [d_data d_size d_num d_last d_ln d_ld]. assert (L : len (repeat (@None A) (Z.to_nat n)) = n) by (unfold len; rewrite repeat_length; lia). rewrite L.
    destruct (Z.to_nat n); reflexivity.
  Qed.
  (** ArrayStack *)
  Definition stack_cpp (o : stack_op A) : stack_op (option A) := match o with SPush x => SPush (Some x) | SPop => SPop | SPeek => SPeek | SLen => SLen | SEmpty => SEmpty end.
  Lemma cs_step_eq d l o : as_rel d l -> let '(d', r) := as_step d o in cs_step (emb d) (stack_cpp o) = (emb d', r).
  Proof.
    intros R. assert (I : doda_inv d) by (destruct R; tauto). assert (SS := as_step_sim d l o R). destruct o as [x| | | |]; cbn [as_step cs_step stack_cpp] in *.
    - destruct (step_eq d (DAppend x) I) as (d1 & E & _ & E'). cbn [doda_step cdoda_step cpp_op] in E, E'. rewrite E, E'. reflexivity.
    - unfold cs_is_empty, as_is_empty. cbn [emb c_last]. change (Cdoda (d_data d) (d_size d) (d_size d) (d_num d) (d_last d) (d_ln d) (d_ld d)) with (emb d). destruct (d_last d =? -1); [reflexivity|].
      rewrite get_eq by exact I. destruct (doda_get d (d_last d)) as [top| |]; cbn [bind out_of]; try reflexivity.
      destruct (step_eq d (DDelete (d_last d)) I) as (d1 & E & _ & E'). cbn [doda_step cdoda_step cpp_op] in E, E'. rewrite E, E'. reflexivity.
    - cbn [emb c_last]. change (Cdoda (d_data d) (d_size d) (d_size d) (d_num d) (d_last d) (d_ln d) (d_ld d)) with (emb d). rewrite get_eq by exact I. destruct (doda_get d (d_last d)) as [top| |]; reflexivity.
    - reflexivity.
    - reflexivity.
  Qed.
  Lemma cs_run_eq ops : forall d l, as_rel d l -> snd (run_hist cs_step (map stack_cpp ops) (emb d)) = snd (run_hist (stack_spec (OErr IndexError)) ops l).
  Proof.
    induction ops as [|o ops IH]; intros d l R; cbn [run_hist map]; [reflexivity|].
    assert (E := cs_step_eq d l o R). destruct (as_step_sim d l o R) as [E1 R1]. destruct (as_step d o) as [d1 r]. rewrite E. cbn [fst snd] in *.
    destruct (stack_spec (OErr IndexError) l o) as [l1 r1]. cbn [fst snd] in *. subst r1. specialize (IH d1 l1 R1).
    destruct (run_hist cs_step (map stack_cpp ops) (emb d1)). destruct (run_hist (stack_spec (OErr IndexError)) ops l1). cbn [snd] in *. congruence.
  Qed.
  Lemma cs_new_rel items : exists d, as_rel d items /\ cs_new items = emb d.
  Proof.
    exists (as_new items). split; [apply as_new_rel|]. unfold cs_new, as_new. destruct items as [|x items]; [reflexivity|]. apply new_eq_list.
  Qed.
  Lemma last_some_eq l : forall i j, doda_last_some l i = Ret j -> @cpp_last_some A l i = Ret j /\ i - len l < j <= i.
  Proof.
    induction l as [|[x|] l IH]; intros i j H; cbn [doda_last_some cpp_last_some] in *; [discriminate| |].
    - injection H as <-. rewrite len_cons. pose proof (len_nonneg _ l). split; [reflexivity|lia].
    - destruct (IH _ _ H) as [E B]. rewrite len_cons. split; [exact E|lia].
  Qed.
  Lemma force_eq d d' : len (d_data d) = d_size d -> doda_modify_force d = Ret d' -> cpp_modify_force (emb d) = Ret (emb d').
  Proof.
    intros L H. unfold doda_modify_force in H. unfold cpp_modify_force. cbn [emb c_asize c_size c_num c_ld c_ln c_last c_buf].
    destruct (doda_last_some (rev (d_data d)) (-1)) as [i| |] eqn:E; cbn [bind] in H; try discriminate. destruct (last_some_eq _ _ _ E) as [E2 B]. rewrite E2. cbn [bind].
    destruct (Z.eqb_spec (d_size d) 0); [discriminate|]. assert (len (rev (d_data d)) = d_size d) by (unfold len in *; rewrite rev_length; exact L). pose proof (len_nonneg _ (d_data d)).
    replace (i + d_size d) with (i mod d_size d). 2:{ rewrite <- (Z.mod_add i 1 (d_size d)) by lia. rewrite Z.mul_1_l. apply Z.mod_small. lia. }
    apply modify_eq in H; [exact H|cbn [d_size]; lia].
  Qed.
End DodaProofs.
