(** Multiset: every history that returns counts right; histories that keep their elements return. *)
From Coq Require Import Sorting.Sorted.
From Verif Require Import Base TreeModel TreeModel2 TreeSpec TreeProofs TreeRotate TreeBst TreeTrav TreeQuery TreeLca TreeDel TreeHist TreeBalSpec TreeAvl TreeAvl2 TreeSim TreeTreap TreeSplay TreeRb TreeMulti MultisetSpec.

(** the program: the calls of a history, on Multiset() *)
Definition ms_step (m : multiset) (o : mop) : res multiset := match o with Add x => ms_add m x | Remove x => ms_remove m x end.
Fixpoint ms_run (m : multiset) (ops : list mop) : res multiset := match ops with [] => Ret m | o :: ops' => m <- ms_step m o ;; ms_run m ops' end.
Definition ms_history (ops : list mop) : res multiset := m <- ms_new ;; ms_run m ops.

Lemma cget_cset d k v k' : cget (cset d k v) k' = if k' =? k then Some v else cget d k'.
Proof.
  induction d as [|[a w] d IH]; cbn [cset cget]; [reflexivity|]. destruct (Z.eqb_spec k a) as [-> |N1]; cbn [cget].
  - destruct (Z.eqb_spec k' a); reflexivity.
  - rewrite IH. destruct (Z.eqb_spec k' a) as [-> |N2]; [|reflexivity]. destruct (Z.eqb_spec a k); [congruence|reflexivity].
Qed.
Lemma occurs_cons x y l : occurs x (y :: l) = (if x =? y then 1 else 0) + occurs x l.
Proof. unfold occurs. cbn [count_occ]. destruct (Z.eq_dec y x), (Z.eqb_spec x y); try congruence; lia. Qed.
Lemma occurs_nonneg x l : 0 <= occurs x l.
Proof. unfold occurs. lia. Qed.
Lemma occurs_In x l : 0 < occurs x l <-> In x l.
Proof. unfold occurs. rewrite (count_occ_In Z.eq_dec). lia. Qed.
Lemma remove_one_occurs x y l : occurs y (remove_one x l) = occurs y l - (if (y =? x) && (0 <? occurs x l) then 1 else 0).
Proof.
  induction l as [|z l IH]; cbn [remove_one]; [unfold occurs; cbn; destruct (y =? x); reflexivity|]. rewrite !occurs_cons. destruct (Z.eqb_spec x z) as [-> |N].
  - pose proof (occurs_nonneg z l). destruct (Z.eqb_spec y z); cbn [andb]; [replace (0 <? 1 + occurs z l) with true by lia|]; lia.
  - rewrite occurs_cons, IH, ?Z.add_0_l. ring.
Qed.
Lemma remove_one_len x l : len (remove_one x l) = len l - (if 0 <? occurs x l then 1 else 0).
Proof.
  unfold len. induction l as [|z l IH]; cbn [remove_one length]; [reflexivity|]. rewrite occurs_cons. pose proof (occurs_nonneg x l). destruct (Z.eqb_spec x z) as [-> |N].
  - replace (0 <? 1 + occurs z l) with true by lia. lia.
  - rewrite Z.add_0_l. cbn [length]. destruct (0 <? occurs x l); lia.
Qed.
Lemma bag_snoc ops o : bag (ops ++ [o]) = mstep (bag ops) o.
Proof. unfold bag. rewrite fold_left_app. reflexivity. Qed.
(** the counter after [ops] *)
Definition counted (m : multiset) (ops : list mop) : Prop :=
  (forall x, ms_count m x = occurs x (bag ops)) /\ ms_n m = len (bag ops) /\ (forall x, cget (ms_counter m) x = None <-> ~ In (Add x) ops).
Lemma step_counted m ops o m' : counted m ops -> ms_step m o = Ret m' -> counted m' (ops ++ [o]).
Proof.
  intros (H1 & H2 & H3) HR. unfold counted. rewrite bag_snoc. destruct o as [x|x]; cbn [ms_step mstep] in *.
  - unfold ms_add in HR. set (c := cset (ms_counter m) x (ms_count m x + 1)) in *.
    assert (EC : ms_counter m' = c /\ ms_n m' = ms_n m + 1). { destruct (ms_count (mkms c (ms_tree m) (ms_n m + 1)) x =? 1); [destruct (rb_insert _ _ _) as [t| |]; cbn [bind] in HR; try discriminate|]; injection HR as <-; split; reflexivity. }
    destruct EC as [EC EN]. split; [|split].
    + intros y. unfold ms_count. rewrite EC. unfold c. rewrite cget_cset, occurs_cons. destruct (Z.eqb_spec y x) as [-> |N]; [rewrite H1; lia|]. specialize (H1 y). unfold ms_count in H1. rewrite H1. lia.
    + rewrite EN, H2. unfold len. cbn [length]. lia.
    + intros y. rewrite EC. unfold c. rewrite cget_cset, in_app_iff. destruct (Z.eqb_spec y x) as [-> |N]; [split; [discriminate|intros X; exfalso; apply X; right; left; reflexivity]|]. rewrite H3. split; intros X Y; apply X; [destruct Y as [Y|[Y|[]]]; [exact Y|congruence]|left; exact Y].
  - unfold ms_remove in HR. destruct (cget (ms_counter m) x) as [c|] eqn:EG; [|discriminate]. destruct (if c =? 1 then _ else _) as [t| |]; cbn [bind] in HR; [|discriminate..].
    assert (EO : occurs x (bag ops) = c) by (rewrite <- H1; unfold ms_count; rewrite EG; reflexivity).
    assert (NEV : forall y, ~ In (Add y) (ops ++ [Remove x]) <-> ~ In (Add y) ops) by (intros y; rewrite in_app_iff; cbn [In]; split; intros X Y; apply X; [left; exact Y|destruct Y as [Y|[Y|[]]]; [exact Y|discriminate]]).
    destruct (Z.ltb_spec 0 c) as [L|L]; injection HR as <-; cbn [ms_n ms_counter]; (split; [|split]).
    + intros y. unfold ms_count. cbn [ms_counter]. rewrite cget_cset, remove_one_occurs, EO. specialize (H1 y). unfold ms_count in H1. destruct (Z.eqb_spec y x) as [-> |N]; cbn [andb]; [rewrite EO; destruct (Z.ltb_spec 0 c); lia|rewrite H1; lia].
    + rewrite remove_one_len, EO, H2. destruct (Z.ltb_spec 0 c); lia.
    + intros y. rewrite cget_cset, NEV. destruct (Z.eqb_spec y x) as [-> |N]; [|apply H3]. rewrite <- H3, EG. split; discriminate.
    + intros y. unfold ms_count. cbn [ms_counter]. rewrite remove_one_occurs, EO. specialize (H1 y). unfold ms_count in H1. rewrite H1. destruct (Z.ltb_spec 0 c); [lia|]. rewrite andb_false_r. lia.
    + rewrite remove_one_len, EO, H2. destruct (Z.ltb_spec 0 c); lia.
    + intros y. rewrite NEV. apply H3.
Qed.
Lemma run_counted ops : forall m done m', counted m done -> ms_run m ops = Ret m' -> counted m' (done ++ ops).
Proof.
  induction ops as [|o ops IH]; intros m done m' HC HR; cbn [ms_run] in HR; [injection HR as <-; rewrite app_nil_r; exact HC|]. destruct (ms_step m o) as [m1| |] eqn:E1; cbn [bind] in HR; [|discriminate..].
  change (done ++ o :: ops) with (done ++ [o] ++ ops). rewrite app_assoc. eapply IH; [eapply step_counted; eassumption|exact HR].
Qed.
Lemma new_counted : counted (mkms [] (fresh false) 0) [].
Proof. split; [reflexivity|]. split; [reflexivity|]. intros x. cbn. tauto. Qed.
Lemma history_run ops : ms_history ops = ms_run (mkms [] (fresh false) 0) ops.
Proof. reflexivity. Qed.

(** the tree holds the keys *)
Definition treed (m : multiset) (ops : list mop) : Prop :=
  (bag ops = [] /\ ms_tree m = fresh false /\ (forall x, ~ In (Add x) ops)) \/ exists T h, rgood (ms_tree m) T h /\ forall x, last_data h x <> None <-> In x (bag ops).
Lemma last_data_snoc {D} (h : list (Z * option D)) k d x : last_data (h ++ [(k, d)]) x = if x =? k then Some d else last_data h x.
Proof. induction h as [|[k1 d1] h IH]; cbn [app last_data]; [reflexivity|]. rewrite IH. destruct (x =? k); reflexivity. Qed.
Lemma step_treed m ops o : counted m ops -> treed m ops -> (forall x, o = Remove x -> occurs x (bag ops) <> 1 /\ In (Add x) ops) -> exists m', ms_step m o = Ret m' /\ treed m' (ops ++ [o]).
Proof.
  intros (H1 & H2 & H3) HT HO. destruct o as [x|x]; cbn [ms_step].
  - unfold ms_add. set (c := cset (ms_counter m) x (ms_count m x + 1)). assert (EC : ms_count (mkms c (ms_tree m) (ms_n m + 1)) x = occurs x (bag ops) + 1) by (unfold ms_count; cbn [ms_counter]; unfold c; rewrite cget_cset, Z.eqb_refl, H1; reflexivity). rewrite EC.
    pose proof (occurs_nonneg x (bag ops)). destruct (Z.eqb_spec (occurs x (bag ops) + 1) 1) as [E1|N1]; cbn [ms_tree ms_n].
    + assert (NI : ~ In x (bag ops)) by (intros X; apply occurs_In in X; lia). destruct HT as [(EB & ET & _)|(T & h & G & HL)].
      * rewrite ET, rb_first. cbn [bind]. eexists. split; [reflexivity|]. right. exists (N E 0 (mkinfo (Some x) None 0 1 true None (Some 0)) E), [(x, None)]. split; [split; [reflexivity|apply one_grown|apply one_cont; reflexivity|discriminate|split; constructor|reflexivity|exists 1; cbn; left; auto]|].
        intros y. rewrite bag_snoc, EB. cbn [mstep last_data In]. destruct (Z.eqb_spec y x); split; intros X; try discriminate; try congruence; auto. destruct X as [X|[]]; congruence.
      * assert (HN : last_data h x = None) by (destruct (last_data h x) eqn:EL; [|reflexivity]; exfalso; apply NI, HL; rewrite EL; discriminate). destruct (rb_insert_ok _ T h x None G HN) as (b' & T' & E2 & G2 & _). rewrite E2. cbn [bind]. eexists. split; [reflexivity|]. right. exists T', (h ++ [(x, None)]). split; [exact G2|].
        intros y. rewrite bag_snoc, last_data_snoc. cbn [mstep In]. destruct (Z.eqb_spec y x) as [-> |N]; [split; [auto|discriminate]|]. rewrite HL. split; [auto|]. intros [X|X]; [congruence|exact X].
    + eexists. split; [reflexivity|]. destruct HT as [(EB & _)|(T & h & G & HL)]; [exfalso; rewrite EB in N1; unfold occurs in N1; cbn in N1; lia|]. right. exists T, h. split; [exact G|]. intros y. rewrite bag_snoc, HL. cbn [mstep In]. split; [auto|]. intros [<- |X]; [apply occurs_In; lia|exact X].
  - destruct (HO x eq_refl) as [N1 HA]. unfold ms_remove. destruct (cget (ms_counter m) x) as [c|] eqn:EG; [|exfalso; apply (proj1 (H3 x) EG); exact HA].
    assert (EO : occurs x (bag ops) = c) by (rewrite <- H1; unfold ms_count; rewrite EG; reflexivity). destruct (Z.eqb_spec c 1); [congruence|]. cbn [bind].
    assert (TR : forall m', ms_tree m' = ms_tree m -> treed m' (ops ++ [Remove x])).
    { intros m' EM. destruct HT as [(_ & _ & NA)|(T & h & G & HL)]; [exfalso; apply (NA x HA)|]. right. exists T, h. rewrite EM. split; [exact G|]. intros y. rewrite HL, bag_snoc. cbn [mstep]. rewrite <- !occurs_In, remove_one_occurs, EO. destruct (Z.eqb_spec y x) as [-> |N]; cbn [andb]; [rewrite EO; destruct (Z.ltb_spec 0 c); lia|lia]. }
    destruct (Z.ltb_spec 0 c); eexists; (split; [reflexivity|]); apply TR; reflexivity.
Qed.
Lemma run_treed ops : forall m done, counted m done -> treed m done -> keeps_elements (done ++ ops) -> exists m', ms_run m ops = Ret m' /\ treed m' (done ++ ops).
Proof.
  induction ops as [|o ops IH]; intros m done HC HT HK; cbn [ms_run]; [exists m; rewrite app_nil_r; auto|].
  destruct (step_treed m done o HC HT) as (m1 & E1 & T1); [intros x ->; apply (HK done x ops eq_refl)|]. rewrite E1. cbn [bind]. change (done ++ o :: ops) with (done ++ [o] ++ ops) in *. rewrite app_assoc in *. apply IH; [eapply step_counted; eassumption|exact T1|exact HK].
Qed.
Lemma treed_bounds m ops key : treed m ops -> exists lo hi, ms_lower_bound m key = Ret lo /\ ms_upper_bound m key = Ret hi /\ least (fun k => key <= k) (bag ops) lo /\ least (fun k => key < k) (bag ops) hi.
Proof.
  intros [(EB & ET & _)|(T & h & G & HL)]; unfold ms_lower_bound, ms_upper_bound.
  - rewrite ET, EB. exists None, None. split; [reflexivity|]. split; [reflexivity|]. split; intros k [].
  - destruct (bounds_view _ T h key (r_def _ _ _ G) (r_grown _ _ _ G) (r_cont _ _ _ G)) as (lo & hi & A & B & C & F). exists lo, hi. split; [exact A|]. split; [exact B|].
    assert (EK : forall z, In z (map fst (entries T)) <-> In z (bag ops)). { intros z. rewrite <- HL. destruct (cont_map T h (r_cont _ _ _ G)) as [_ M]. rewrite in_map_iff. split.
      - intros ([k d] & <- & X). apply M in X. cbn [fst]. rewrite X. discriminate.
      - intros X. destruct (last_data h z) as [d|] eqn:EL; [|congruence]. exists (z, d). split; [reflexivity|]. apply M. exact EL. }
    clear - C F EK. split; [destruct lo as [z|]|destruct hi as [z|]]; cbn [least] in *.
    + destruct C as (C1 & C2 & C3). split; [apply EK; exact C1|]. split; [exact C2|]. intros k Hk. apply C3. apply EK. exact Hk.
    + intros k Hk. apply C, EK, Hk.
    + destruct F as (C1 & C2 & C3). split; [apply EK; exact C1|]. split; [exact C2|]. intros k Hk. apply C3. apply EK. exact Hk.
    + intros k Hk. apply F, EK, Hk.
Qed.
