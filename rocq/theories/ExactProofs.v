(** is_ordered with empty cells, radix_sort and bucket_sort outside their domain, Fenwick sums outside the array. *)
From Verif Require Import Base ArraysProofs SortModel SortSpec SortProofs SortProofs3 SortProofs4 SortModel2 DistProofs DistProofs2 SearchModel SearchProofs
  RangeModel RangeSpec FenwickProofs ExactSpec.

Section O.
  Context {A : Type} (comp : A -> A -> bool).
  Lemma ordered_any (a : list (option A)) s e : 0 <= s -> e < len a ->
    wp (is_ordered comp a s e) (fun b => b = true <-> forall i u v, s < i <= e -> zn None a i = Some u -> zn None a (i - 1) = Some v -> comp u v = false).
  Proof.
    intros Hs He. unfold is_ordered. apply wp_bind.
    set (bad := fun i => match zn None a i, zn None a (i - 1) with Some u, Some v => comp u v | _, _ => false end).
    eapply wp_mono; [apply for_find_spec with (P := fun i x => x = false /\ bad i = true) (N := fun i => bad i = false)|].
    - intros i Hi. apply zrange_in in Hi. apply wp_bind. apply (wp_aget _ None); [lia|]. apply wp_bind. apply (wp_aget _ None); [lia|].
      apply wp_ret. unfold bad. destruct (zn None a i) as [u|]; [|reflexivity]. destruct (zn None a (i - 1)) as [v|]; [|reflexivity]. destruct (comp u v); auto.
    - assert (K : forall i u v, zn None a i = Some u -> zn None a (i - 1) = Some v -> bad i = comp u v) by (intros i u v E1 E2; unfold bad; rewrite E1, E2; reflexivity).
      intros [b|]; intros H; apply wp_ret.
      + destruct H as (pre & i & post & E & (-> & Hc) & _). apply zrange_app_inv in E. destruct E as [_ Hi].
        split; [discriminate|]. intros G. unfold bad in Hc. destruct (zn None a i) as [u|] eqn:E1; [|discriminate]. destruct (zn None a (i - 1)) as [v|] eqn:E2; [|discriminate].
        rewrite (G i u v) in Hc; [discriminate|lia|assumption|assumption].
      + split; [|reflexivity]. intros _ i u v Hi E1 E2. rewrite <- (K i u v E1 E2). apply H, zrange_in. lia.
  Qed.
End O.

Section Radix.
  Notation arr := (list (option Z)).
  Notation "a $ i" := (zn None a i) (at level 9, format "a $ i").
  Lemma radix_nonpos (a : arr) s e : 0 <= s -> s <= e -> e < len a -> a$s <> None -> (forall i v, s <= i <= e -> a$i = Some v -> v <= 0) -> radix_sort a s e = Ret a.
  Proof.
    intros Hs Hse He H0 Hn. unfold radix_sort. rewrite (aget_ok _ None) by lia. cbn [bind].
    assert (W : wp (forM (zrange (s + 1) (e + 1)) (fun i max_val => x <- aget a i ;;
      match x, max_val with | None, _ => Ret max_val | Some v, Some m => Ret (if m <? v then Some v else Some m) | Some _, None => Raise TypeError end) a$s) (fun M => exists m, M = Some m /\ m <= 0)).
    { apply (wp_for_range _ _ _ _ (fun _ M => exists m, M = Some m /\ m <= 0)); [| |auto].
      - destruct (a$s) as [v|] eqn:E; [|contradiction]. exists v. split; [reflexivity|]. apply (Hn s v); [lia|exact E].
      - intros i M Hi (m & -> & Hm). apply wp_bind, (wp_aget _ None); [lia|]. destruct (a$i) as [v|] eqn:E; apply wp_ret; [|eauto]. destruct (m <? v); [exists v|exists m]; (split; [reflexivity|]); [apply (Hn i v); [lia|exact E]|exact Hm]. }
    apply wp_ex in W. destruct W as (M & -> & m & -> & Hm). cbn [bind while_loop]. rewrite Z.div_1_r. destruct (Z.ltb_spec 0 m); [lia|]. reflexivity.
  Qed.
  Lemma radix_none_first (a : arr) s e : 0 <= s -> s <= e -> e < len a -> a$s = None -> radix_sort a s e = Raise TypeError.
  Proof.
    intros Hs Hse He H0. unfold radix_sort. rewrite (aget_ok _ None), H0 by lia. cbn [bind].
    assert (W : forall l, (forall i, In i l -> 0 <= i < len a) -> forall r, forM l (fun i max_val => x <- aget a i ;;
      match x, max_val with | None, _ => Ret max_val | Some v, Some m => Ret (if m <? v then Some v else Some m) | Some _, None => Raise TypeError end) None = r -> r = Ret None \/ r = Raise TypeError).
    { induction l as [|i l IH]; intros Hl r <-; [left; reflexivity|]. cbn [forM]. rewrite (aget_ok _ None) by (apply Hl; left; reflexivity). cbn [bind]. destruct (a$i); cbn [bind]; [right; reflexivity|].
      apply IH; [intros; apply Hl; right; assumption|reflexivity]. }
    destruct (W (zrange (s + 1) (e + 1)) ltac:(intros i Hi; apply zrange_in in Hi; lia) _ eq_refl) as [->| ->]; reflexivity.
  Qed.
End Radix.

Section Bucket.
  Notation arr := (list (option Z)).
  Lemma forM_dies (l : list Z) (body : Z -> list (list Z) -> res (list (list Z))) (I : list (list Z) -> Prop) (er : exn) x : In x l ->
    (forall v s, In v l -> I s -> (exists t, body v s = Ret t /\ I t) \/ body v s = Raise er) -> (forall s, I s -> body x s = Raise er) ->
    forall s, I s -> forM l body s = Raise er.
  Proof.
    induction l as [|v l IH]; intros Hx Hb Hd s Hs; [destruct Hx|]. cbn [forM]. destruct (Hb v s (or_introl eq_refl) Hs) as [(t & E & Ht)|E]; [|rewrite E; reflexivity].
    destruct Hx as [->|Hx]; [rewrite (Hd s Hs); reflexivity|]. rewrite E. cbn [bind]. apply IH; auto. intros w t' Hw. apply Hb. right. exact Hw.
  Qed.
  Lemma bucket_bad (a : arr) s e mx : 0 <= s -> s <= e -> e < len a ->
    let vals := content (seg a s e) in
    In mx vals -> (forall v, In v vals -> 0 <= v <= mx) ->
    (mx < len vals -> bucket_sort a s e = Raise ZeroDivisionError) /\
    (len vals <= mx -> len vals < mx / (mx / len vals) \/ 256 < len vals -> bucket_sort a s e = Raise IndexError).
  Proof.
    intros Hs Hse He vals Hmx Hv.
    assert (L1 : 1 <= len vals) by (destruct vals; [destruct Hmx|unfold len; cbn [length]; lia]).
    unfold bucket_sort.
    match goal with |- context [bind (forM (zrange s (e + 1)) ?f None) ?k] => assert (E1 : forM (zrange s (e + 1)) f None = forM vals (fun v _ => Ret (Some v)) None) end.
    { unfold vals. rewrite <- loop_content by assumption. generalize (@None Z). induction (zrange s (e + 1)) as [|i l IH]; intros o; [reflexivity|]. cbn [forM].
      destruct (aget a i) as [[v|]| |]; cbn [bind]; try reflexivity; apply IH. }
    rewrite E1. clear E1.
    assert (W1 : wp (forM vals (fun v _ => Ret (Some v)) None) (fun o => exists v, o = Some v /\ In v vals)).
    { pose proof (wp_forM _ _ vals (fun v (_ : option Z) => Ret (Some v)) (fun pre o => match pre with [] => o = None | _ => exists v, o = Some v /\ In v vals end)) as W.
      eapply wp_mono; [apply W; [|reflexivity]|].
      - intros pre v post o E _. cbn. destruct (pre ++ [v]) eqn:Ep; [destruct pre; discriminate|]. exists v. split; [reflexivity|]. rewrite E. apply in_or_app. right. left. reflexivity.
      - intros o Ho. destruct vals; [destruct Hmx|exact Ho]. }
    apply wp_ex in W1. destruct W1 as (o & -> & v0 & -> & Hv0). cbn [bind].
    match goal with |- context [bind (forM (zrange s (e + 1)) ?f (0, Some v0)) ?k] => assert (E2 : forM (zrange s (e + 1)) f (0, Some v0) = forM vals (fun v '(c, M) => match M with Some m => Ret (c + 1, if m <? v then Some v else Some m) | None => Raise TypeError end) (0, Some v0)) end.
    { unfold vals. rewrite <- loop_content by assumption. generalize (0, Some v0). induction (zrange s (e + 1)) as [|i l IH]; intros [c o]; [reflexivity|]. cbn [forM].
      destruct (aget a i) as [[v|]| |]; cbn [bind]; try reflexivity; [destruct o; cbn [bind]; try reflexivity|]; apply IH. }
    rewrite E2. clear E2.
    assert (W2 : wp (forM vals (fun v '(c, M) => match M with Some m => Ret (c + 1, if m <? v then Some v else Some m) | None => Raise TypeError end) (0, Some v0)) (fun '(c, M) => c = len vals /\ M = Some mx)).
    { eapply wp_mono; [apply (wp_forM _ _ _ _ (fun pre '(c, M) => c = len pre /\ exists m, M = Some m /\ In m vals /\ forall x, In x pre -> x <= m))|].
      - intros pre v post [c M] E (-> & m & -> & Hm & Hle). cbn [wp]. rewrite len_app. change (len [v]) with 1. split; [reflexivity|].
        destruct (Z.ltb_spec m v).
        + exists v. split; [reflexivity|]. split; [rewrite E; apply in_or_app; right; left; reflexivity|]. intros x Hx. apply in_app_or in Hx. destruct Hx as [Hx|[<-|[]]]; [specialize (Hle x Hx); lia|lia].
        + exists m. split; [reflexivity|]. split; [exact Hm|]. intros x Hx. apply in_app_or in Hx. destruct Hx as [Hx|[<-|[]]]; [auto|lia].
      - split; [reflexivity|]. exists v0. split; [reflexivity|]. split; [exact Hv0|]. intros ? [].
      - intros [c M] (-> & m & -> & Hm & Hle). split; [reflexivity|]. f_equal. pose proof (Hle mx Hmx); pose proof (Hv m Hm); lia. }
    apply wp_ex in W2. destruct W2 as ([c M] & -> & -> & ->). cbn [bind].
    set (count := len vals) in *. set (size := mx / count) in *. unfold py_floordiv at 1 3. destruct (Z.eqb_spec count 0); [lia|]. cbn [bind]. fold size.
    set (body := fun v bl => j <- py_floordiv v size ;; let k := if py_is_not j count then j else count - 1 in b <- lget bl k ;; aset bl k (b ++ [v])).
    assert (E3 : forall st, forM (zrange s (e + 1)) (fun i buckets_list => x <- aget a i ;; match x with None => Ret buckets_list | Some v => body v buckets_list end) st = forM vals body st) by (intros st; apply loop_content; assumption).
    unfold body in E3 at 1. cbv zeta in E3. rewrite !E3.
    set (I := fun bl : list (list Z) => len bl = count). assert (I0 : I (repeat [] (Z.to_nat count))) by (unfold I; rewrite len_repeat; lia).
    pose proof (Hv mx Hmx) as Hm0. split.
    - intros Hlt. assert (Es : size = 0) by (unfold size; apply Z.div_small; lia).
      rewrite (forM_dies vals body I ZeroDivisionError mx Hmx); [reflexivity| | |exact I0]; intros; [right|]; unfold body, py_floordiv; rewrite Es; reflexivity.
    - intros Hge Hj. assert (Hsz : 1 <= size) by (unfold size; apply Z.div_le_lower_bound; lia).
      assert (Hc : size * count <= mx) by (pose proof (Z.mul_div_le mx count ltac:(lia)); fold size in H; lia).
      assert (Hjm : count <= mx / size) by (apply Z.div_le_lower_bound; lia).
      assert (KB : forall v bl, In v vals -> I bl -> (exists t, body v bl = Ret t /\ I t) \/ body v bl = Raise IndexError).
      { intros v bl Hvi HI. pose proof (Hv v Hvi). unfold body, py_floordiv. destruct (Z.eqb_spec size 0); [lia|]. cbn [bind]. cbv zeta. assert (0 <= v / size) by (apply Z.div_pos; lia).
        set (k := if py_is_not (v / size) count then v / size else count - 1). assert (Hk : 0 <= k) by (unfold k; destruct (py_is_not _ _); lia).
        destruct (Z.lt_ge_cases k count).
        - left. rewrite (lget_ok _ []) by (unfold I in HI; lia). cbn [bind]. rewrite aset_ok by (unfold I in HI; lia). eexists. split; [reflexivity|]. unfold I. rewrite len_zupd. exact HI.
        - right. unfold lget. destruct (Z.ltb_spec k 0); [lia|]. rewrite aget_err by (unfold I in HI; lia). reflexivity. }
      rewrite (forM_dies vals body I IndexError mx Hmx KB); [reflexivity| |exact I0].
      intros bl HI. unfold body, py_floordiv. destruct (Z.eqb_spec size 0); [lia|]. cbn [bind]. cbv zeta.
      assert (Ek : py_is_not (mx / size) count = true).
      { unfold py_is_not. destruct (Z.eqb_spec (mx / size) count), (Z.ltb_spec 256 (mx / size)), (Z.ltb_spec (mx / size) (-5)); cbn; try reflexivity. exfalso. unfold size in *. lia. }
      rewrite Ek. unfold lget. destruct (Z.ltb_spec (mx / size) 0); [lia|]. rewrite aget_err by (unfold I in HI; lia). reflexivity.
  Qed.
  Lemma bucket_empty (a : arr) s e : 0 <= s -> e < len a -> content (seg a s e) = [] -> bucket_sort a s e = Raise TypeError.
  Proof.
    intros Hs He Hc. unfold bucket_sort.
    match goal with |- context [bind (forM (zrange s (e + 1)) ?f None) ?k] => assert (E1 : forM (zrange s (e + 1)) f None = forM (content (seg a s e)) (fun v _ => Ret (Some v)) None) end.
    { rewrite <- loop_content by assumption. generalize (@None Z). induction (zrange s (e + 1)) as [|i l IH]; intros o; [reflexivity|]. cbn [forM].
      destruct (aget a i) as [[v|]| |]; cbn [bind]; try reflexivity; apply IH. }
    rewrite E1, Hc. clear E1. cbn [forM bind].
    match goal with |- context [bind (forM (zrange s (e + 1)) ?f (0, None)) ?k] => assert (E2 : forM (zrange s (e + 1)) f (0, None) = forM (content (seg a s e)) (fun v '(c, M) => match M with Some m => Ret (c + 1, if m <? v then Some v else Some m) | None => Raise TypeError end) (0, None)) end.
    { rewrite <- loop_content by assumption. generalize (0, @None Z). induction (zrange s (e + 1)) as [|i l IH]; intros [c o]; [reflexivity|]. cbn [forM].
      destruct (aget a i) as [[v|]| |]; cbn [bind]; try reflexivity; [destruct o; cbn [bind]; try reflexivity|]; apply IH. }
    rewrite E2, Hc. reflexivity.
  Qed.
End Bucket.

(** Fenwick: the spare cell behind the tree stays 0 *)
Definition spare (b : fenwick) : Prop := zn 0 (fw_tree b) (len (fw_array b) + 1) = 0.
Lemma add_loop_spare fuel n v : forall i tree t, 1 <= i -> fw_add_loop fuel n i v tree = Ret t -> zn 0 t (n + 1) = zn 0 tree (n + 1).
Proof.
  unfold fw_add_loop. induction fuel as [|fuel IH]; intros i tree t Hi E; [discriminate|]. cbn [while_loop] in E. destruct (Z.ltb_spec i (n + 1)); [|cbn in E; congruence].
  destruct (lget tree i) as [x| |] eqn:EG; cbn [bind] in E; try discriminate. destruct (aset tree i (x + v)) as [tr| |] eqn:ES; cbn [bind] in E; try discriminate.
  assert (L : 1 <= Z.land i (- i)) by (pose proof (lb_pos i ltac:(lia)); unfold lb in *; lia).
  rewrite (IH (i + Z.land i (- i)) tr t ltac:(lia) E). unfold aset in ES. destruct (Z.ltb_spec i 0); [lia|]. destruct (Z.ltb_spec i 0); [lia|]; destruct (Z.leb_spec (len tree) i); cbn [orb] in ES; [discriminate|]. injection ES as <-. change (upd tree (Z.to_nat i) (x + v)) with (zupd tree i (x + v)). assert (Hlt : i < len tree) by assumption; apply zn_zupd_ne; lia.
Qed.
Lemma update_spare b i v b' : 0 <= i -> fw_update b i v = Ret b' -> spare b -> spare b'.
Proof.
  intros Hi E S. unfold fw_update, fw_update_fuel in E. destruct (lget (fw_flag b) i) as [f| |]; cbn [bind] in E; try discriminate.
  assert (AL : forall a', aset (fw_array b) i v = Ret a' -> len a' = len (fw_array b)) by (intros a' X; unfold aset in X; destruct (_ || _); [discriminate|]; injection X as <-; apply len_upd).
  destruct (f =? 0).
  - destruct (aset (fw_flag b) i 1) as [fl| |]; cbn [bind] in E; try discriminate. destruct (fw_add_loop _ _ _ _ _) as [t| |] eqn:EL in E; cbn [bind] in E; try discriminate.
    destruct (aset (fw_array b) i v) as [a'| |] eqn:EA; cbn [bind] in E; try discriminate. injection E as <-. unfold spare in *. cbn [fw_tree fw_array]. rewrite (AL a' eq_refl). assert (Hi1 : 1 <= i + 1) by lia; rewrite (add_loop_spare _ _ _ _ _ _ Hi1 EL). exact S.
  - destruct (aget (fw_array b) i) as [old| |]; cbn [bind] in E; try discriminate. destruct (fw_add_loop _ _ _ _ _) as [t| |] eqn:EL in E; cbn [bind] in E; try discriminate.
    destruct (aset (fw_array b) i v) as [a'| |] eqn:EA; cbn [bind] in E; try discriminate. injection E as <-. unfold spare in *. cbn [fw_tree fw_array]. rewrite (AL a' eq_refl). assert (Hi1 : 1 <= i + 1) by lia; rewrite (add_loop_spare _ _ _ _ _ _ Hi1 EL). exact S.
Qed.
Lemma forM_keeps {X S} (P : S -> Prop) (l : list X) (f : X -> S -> res S) : (forall x s t, In x l -> f x s = Ret t -> P s -> P t) -> forall s t, forM l f s = Ret t -> P s -> P t.
Proof.
  induction l as [|x l IH]; intros H s t E Hs; [cbn in E; congruence|]. cbn [forM] in E. destruct (f x s) as [u| |] eqn:Eu; cbn [bind] in E; try discriminate.
  eapply IH; [|exact E|]; [intros; eapply H; eauto; right; assumption|]. eapply H; eauto. left. reflexivity.
Qed.
Lemma new_spare a b : fw_new a = Ret b -> spare b.
Proof.
  unfold fw_new. destruct (lget a 0); cbn [bind]; try discriminate. intros E. eapply (forM_keeps spare); [|exact E|].
  - intros i s t Hi Es. cbv beta in Es. apply zrange_in in Hi. revert Es. destruct (lget a i) as [w| |]; cbn [bind]; try discriminate. intros Es. eapply update_spare; [|exact Es]. lia.
  - unfold spare. cbn. unfold zn. apply nth_repeat.
Qed.
Lemma prefix_exact b r : fw_ok b -> spare b -> fw_prefix b r = prefix_answer (fw_array b) r.
Proof.
  intros O S. unfold prefix_answer. destruct (Z.ltb_spec r (len (fw_array b))) as [H|H]; [apply prefix_ok; assumption|].
  pose proof (len_nonneg _ (fw_array b)) as Hn. pose proof O as [[Hl Ht] _]. unfold fw_prefix.
  replace (Z.to_nat (r + 1) + 1)%nat with (Datatypes.S (Z.to_nat (r + 1))) by lia. cbn [while_loop]. destruct (Z.ltb_spec 0 (r + 1)); [|lia].
  destruct (Z.eqb_spec r (len (fw_array b))) as [->|Hne].
  - rewrite (lget_ok _ 0) by lia. cbn [bind]. unfold spare in S. rewrite S. fold (low_bit (len (fw_array b) + 1)). set (k := len (fw_array b) + 1 - low_bit (len (fw_array b) + 1)).
    assert (Hk : 0 <= k <= len (fw_array b)). { pose proof (lb_pos (len (fw_array b) + 1) ltac:(lia)) as [L1 L2]. unfold lb in *. fold (low_bit (len (fw_array b) + 1)) in *. unfold k. lia. }
    assert (W : wp (while_loop (Z.to_nat (len (fw_array b) + 1)) (fun '(index, sum) => if 0 <? index then v <- lget (fw_tree b) index ;; Ret (Next (index - Z.land index (- index), sum + v)) else Ret (Break sum)) (k, 0 + 0)) (fun s => s = psum (fw_array b) k)).
    { apply wp_while with (I := fun '(j, s) => j <= k /\ s + psum (fw_array b) j = psum (fw_array b) k) (m := fun '(j, s) => Z.to_nat j).
      - intros [j s] [Hj Hs]. destruct (Z.ltb_spec 0 j).
        + rewrite (lget_ok Z 0) by lia. cbn [bind wp]. fold (lb j). pose proof (lb_pos j ltac:(lia)). rewrite (Ht j) by lia. split; [|lia]. split; lia.
        + cbn [wp]. unfold psum in Hs at 1. replace (Z.to_nat j) with 0%nat in Hs by lia. cbn in Hs. lia.
      - split; lia.
      - lia. }
    apply wp_ex in W. destruct W as (t & E & ->). exact E.
  - unfold lget. destruct (Z.ltb_spec (r + 1) 0); [lia|]. rewrite aget_err by lia. reflexivity.
Qed.
