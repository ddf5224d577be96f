(** Specifications and proofs for ArraysModel. *)
From Verif Require Import Base ArraysModel.

(** ** generic list helpers *)
Lemma firstn_S_nth V (d : V) (a : list V) n : (n < length a)%nat -> firstn (S n) a = firstn n a ++ [nth n a d].
Proof.
  revert n; induction a as [|x a IH]; intros n H; simpl in *; [lia|].
  destruct n; simpl; [reflexivity|]. f_equal. apply IH; lia.
Qed.
Lemma upd_repeat_frontier V (l : list V) (x y : V) k :
  (0 < k)%nat -> upd (l ++ repeat x k) (length l) y = (l ++ [y]) ++ repeat x (k - 1).
Proof.
  intros H. rewrite upd_app2 by lia. rewrite Nat.sub_diag. destruct k; [lia|]. simpl.
  rewrite <- app_assoc. simpl. rewrite Nat.sub_0_r. reflexivity.
Qed.
Lemma upd_out V (a : list V) n v : (length a <= n)%nat -> upd a n v = a.
Proof. revert n; induction a as [|x a IH]; intros [|n] H; simpl in *; auto; [lia|]. f_equal; apply IH; lia. Qed.
Lemma len_app V (a b : list V) : len (a ++ b) = len a + len b.
Proof. unfold len; rewrite app_length; lia. Qed.
Lemma len_map V W (f : V -> W) a : len (map f a) = len a.
Proof. unfold len; rewrite map_length; reflexivity. Qed.
Lemma len_repeat V (x : V) n : len (repeat x n) = Z.of_nat n.
Proof. unfold len; rewrite repeat_length; reflexivity. Qed.
Lemma len_cons V (x : V) a : len (x :: a) = len a + 1.
Proof. unfold len; simpl; lia. Qed.
Lemma len_nil V : len (@nil V) = 0. Proof. reflexivity. Qed.

Lemma Forall2_len X Y (R : X -> Y -> Prop) a b : Forall2 R a b -> length a = length b.
Proof. induction 1; simpl; congruence. Qed.

(** filling every cell *)
Lemma fill_loop V (v : V) a :
  forM (zrange 0 (len a)) (fun i d => aset d i v) a = Ret (repeat v (length a)).
Proof.
  assert (W : wp (forM (zrange 0 (len a)) (fun i d => aset d i v) a) (fun r => r = repeat v (length a))).
  { apply wp_for_range with (I := fun i d => 0 <= i /\ d = repeat v (Z.to_nat i) ++ skipn (Z.to_nat i) a).
    - split; [lia|]. reflexivity.
    - intros i s Hi [_ ->].
      assert (Hs : skipn (Z.to_nat i) a = nth (Z.to_nat i) a v :: skipn (S (Z.to_nat i)) a).
      { clear -Hi. unfold len in Hi. assert (Hn : (Z.to_nat i < length a)%nat) by lia. clear Hi.
        revert Hn. generalize (Z.to_nat i). induction a as [|x a IH]; intros n Hn; simpl in *; [lia|].
        destruct n; simpl; [reflexivity|]. apply IH; lia. }
      apply wp_aset.
      + rewrite len_app, len_repeat, Hs, len_cons. pose proof (len_nonneg _ (skipn (S (Z.to_nat i)) a)). lia.
      + split; [lia|]. unfold zupd. rewrite Hs.
        rewrite upd_app2 by (rewrite repeat_length; lia). rewrite repeat_length, Nat.sub_diag. simpl.
        replace (Z.to_nat (i + 1)) with (Z.to_nat i + 1)%nat by lia.
        rewrite repeat_app, <- app_assoc. simpl. do 2 f_equal. rewrite Nat.add_1_r. reflexivity.
    - intros s [_ ->]. pose proof (len_nonneg _ a). unfold len. replace (Z.to_nat (Z.max 0 (Z.of_nat (length a)))) with (length a) by lia.
      rewrite skipn_all, app_nil_r. reflexivity. }
  apply wp_ex in W. destruct W as (r & E & ->). exact E.
Qed.

Lemma zn_repeat V (d v : V) n i : 0 <= i < Z.of_nat n -> zn d (repeat v n) i = v.
Proof. intros H. unfold zn.
  transitivity (nth (Z.to_nat i) (repeat v n) v); [apply nth_indep; rewrite repeat_length; lia|apply nth_repeat].
Qed.

(** ** C01: specification. The value most recently stored at [i] by a history of calls:
    an effective write is one whose element converts and whose (possibly negative) index is in range. *)
Section ODA.
  Context {A B : Type} (conv : A -> res B).

  Definition writes_to (n : Z) (j i : Z) : bool := ((0 <=? j) && (j =? i)) || ((j <? 0) && (j + n =? i)).

  (** effect of one call on the cell [i] of an array of length [n], told from the call alone *)
  Definition cell_after (n i : Z) (old : option B) (o : oda_op A) : option B :=
    match o with
    | OSet j None => if writes_to n j i then None else old
    | OSet j (Some v) => match conv v with Ret w => if writes_to n j i then Some w else old | _ => old end
    | OFill v => match conv v with Ret w => Some w | _ => old end
    end.

  Lemma oda_aset_cell (a : list (option B)) j e i :
    0 <= i < len a ->
    let a' := step_keep a (aset a j e) in
    len a' = len a /\ zn None a' i = if writes_to (len a) j i then e else zn None a i.
  Proof.
    intros Hi. unfold writes_to. cbn zeta. unfold aset.
    set (k := if j <? 0 then j + len a else j).
    assert (Hk : (k =? i) = (0 <=? j) && (j =? i) || (j <? 0) && (j + len a =? i)).
    { subst k. destruct (Z.ltb_spec j 0), (Z.leb_spec 0 j); try lia; simpl; rewrite ?orb_false_r; reflexivity. }
    destruct (Z.ltb_spec k 0); simpl.
    { rewrite <- Hk. destruct (Z.eqb_spec k i); [lia|]. auto. }
    destruct (Z.leb_spec (len a) k); simpl.
    { rewrite <- Hk. destruct (Z.eqb_spec k i); [lia|]. auto. }
    rewrite len_upd; split; [reflexivity|].
    change (upd a (Z.to_nat k) e) with (zupd a k e). rewrite zn_zupd by lia. rewrite Hk. reflexivity.
  Qed.

  Lemma oda_step_cell a o i : 0 <= i < len a ->
    len (oda_step conv a o) = len a /\ zn None (oda_step conv a o) i = cell_after (len a) i (zn None a i) o.
  Proof.
    intros Hi. destruct o as [j [v|]|v]; unfold oda_step, oda_set, oda_fill; simpl.
    - destruct (conv v); simpl; auto. apply oda_aset_cell; exact Hi.
    - apply oda_aset_cell; exact Hi.
    - destruct (conv v); simpl; auto.
      rewrite fill_loop. simpl. rewrite len_repeat. split; [reflexivity|]. apply zn_repeat. exact Hi.
  Qed.

  Lemma oda_run_len ops a : len (oda_run conv ops a) = len a.
  Proof.
    revert a; induction ops as [|o ops IH]; intros a; simpl; [reflexivity|].
    unfold oda_run in *. simpl. rewrite IH.
    destruct o as [j [v|]|v]; unfold oda_step, oda_set, oda_fill; simpl.
    - destruct (conv v); simpl; auto. unfold aset. destruct (_ || _); simpl; auto. apply len_upd.
    - unfold aset. destruct (_ || _); simpl; auto. apply len_upd.
    - destruct (conv v); simpl; auto. rewrite fill_loop. simpl. rewrite len_repeat; reflexivity.
  Qed.

  Lemma oda_history ops : forall a i, 0 <= i < len a ->
    oda_get (oda_run conv ops a) i = Ret (fold_left (cell_after (len a) i) ops (zn None a i)).
  Proof.
    induction ops as [|o ops IH]; intros a i Hi; unfold oda_run, oda_get in *; simpl.
    - apply aget_ok; exact Hi.
    - destruct (oda_step_cell a o i Hi) as [El Ec].
      rewrite IH by (rewrite El; exact Hi). rewrite El, Ec. reflexivity.
  Qed.

  Lemma oda_oob ops a i : i < 0 \/ len a <= i -> oda_get (oda_run conv ops a) i = Raise IndexError.
  Proof. intros H. apply aget_err. rewrite oda_run_len. exact H. Qed.
End ODA.

(** ** C02 / C03 *)
Section MDA.
  Context {A : Type} (conv : A -> res A).

  (** the in-range index tuples of a shape *)
  Definition in_shape (dims t : list Z) : Prop := Forall2 (fun d i => 0 <= i < d) dims t.

  (** suffix products *)
  Definition prod (l : list Z) : Z := fold_right Z.mul 1 l.
  Fixpoint sufprods (dims : list Z) : list Z :=
    match dims with [] => [1] | d :: r => prod (d :: r) :: sufprods r end.

  Lemma fold_left_mul l : forall a, fold_left Z.mul l a = a * prod l.
  Proof. induction l as [|x l IH]; intros a; simpl; [lia|]. rewrite IH. lia. Qed.

  Lemma sufprods_hd dims : exists r, sufprods dims = prod dims :: r.
  Proof. destruct dims; simpl; eauto. Qed.

  Lemma mda_sizes_spec dims : dims <> [] -> mda_sizes dims = sufprods dims.
  Proof.
    unfold mda_sizes. induction dims as [|d dims IH]; intros Hne; [congruence|].
    destruct dims as [|d2 dims]; [simpl; f_equal; lia|].
    assert (IH' := IH ltac:(discriminate)). clear IH.
    change (sufprods (d :: d2 :: dims)) with (prod (d :: d2 :: dims) :: sufprods (d2 :: dims)).
    rewrite <- IH'.
    replace (length (d :: d2 :: dims) - 1)%nat with (S (length (d2 :: dims) - 1)) by (simpl; lia).
    cbn [seq map app]. f_equal.
    - simpl. rewrite fold_left_mul. simpl. lia.
    - f_equal; [|reflexivity..].
      rewrite <- seq_shift, map_map. reflexivity.
  Qed.

  Definition pos_dims (dims : list Z) := Forall (fun d => 1 <= d) dims.

  Lemma prod_pos dims : pos_dims dims -> 1 <= prod dims.
  Proof. induction 1; simpl; nia. Qed.

  Lemma mda_new_ok dims : dims <> [] -> pos_dims dims ->
    mda_new (A := A) dims = Ret (Mda (sufprods dims) (repeat None (Z.to_nat (prod dims)))).
  Proof.
    intros Hne Hp. destruct dims as [|d0 [|d1 dims]]; [congruence| |].
    - simpl. do 2 f_equal; [f_equal; lia| do 2 f_equal; lia].
    - unfold mda_new.
      assert (E : existsb (fun d => d <? 1) (d0 :: d1 :: dims) = false).
      { apply not_true_is_false. intros H. apply existsb_exists in H. destruct H as (x & Hin & Hx).
        apply Z.ltb_lt in Hx. unfold pos_dims in Hp. rewrite Forall_forall in Hp. specialize (Hp _ Hin). lia. }
      rewrite E. rewrite mda_sizes_spec by discriminate.
      do 4 f_equal. simpl. lia.
  Qed.

  Fixpoint pos_spec (dims t : list Z) : Z :=
    match dims, t with
    | d :: ds, i :: t' => prod ds * i + pos_spec ds t'
    | _, _ => 0
    end.

  Lemma mda_position_spec dims : forall t, mda_position (sufprods dims) t = pos_spec dims t.
  Proof.
    induction dims as [|d ds IH]; intros [|i t]; simpl; auto.
    specialize (IH t). destruct (sufprods_hd ds) as [r E]. rewrite E in *. f_equal. exact IH.
  Qed.

  Lemma pos_spec_bound dims t : pos_dims dims -> in_shape dims t -> 0 <= pos_spec dims t < prod dims.
  Proof.
    intros Hp Hs. induction Hs as [|d i ds t Hi Hs IH]; simpl; [lia|].
    inversion Hp; subst. specialize (IH H2). pose proof (prod_pos ds H2). nia.
  Qed.

  Lemma pos_spec_inj dims : pos_dims dims -> forall t u, in_shape dims t -> in_shape dims u ->
    pos_spec dims t = pos_spec dims u -> t = u.
  Proof.
    induction dims as [|d ds IH]; intros Hp t u Ht Hu E; inversion Ht; inversion Hu; subst; [reflexivity|].
    inversion Hp; subst. simpl in E.
    pose proof (pos_spec_bound ds _ H4 H3). pose proof (pos_spec_bound ds _ H4 H8).
    assert (y = y0) by nia. subst. f_equal. apply IH; auto. lia.
  Qed.

  Lemma sufprods_len dims : len (sufprods dims) = len dims + 1.
  Proof. induction dims as [|d ds IH]; [reflexivity|]. cbn [sufprods]. rewrite !len_cons, IH. reflexivity. Qed.

  Lemma compare_shape_ok dims (m : mda A) t : m_sizes m = sufprods dims -> pos_dims dims -> in_shape dims t ->
    mda_compare_shape m t = Ret tt.
  Proof.
    intros Em Hp Hs. unfold mda_compare_shape. rewrite Em.
    assert (El : len t = len dims).
    { apply Forall2_len in Hs. unfold len; lia. }
    rewrite sufprods_len, El. replace (len dims + 1 - 1) with (len dims) by lia. rewrite Z.eqb_refl. simpl.
    replace (existsb _ _) with false; [reflexivity|]. symmetry. clear El Em m.
    induction Hs as [|d i ds t Hi Hs IH]; simpl; [reflexivity|].
    inversion Hp; subst. pose proof (prod_pos ds H2).
    destruct (Z.leb_spec (d * prod ds) i); [nia|]. simpl. apply IH; assumption.
  Qed.

  Definition mda_ok (dims : list Z) (m : mda A) : Prop :=
    m_sizes m = sufprods dims /\ len (m_data m) = prod dims.

  Lemma mda_get_ok dims m t : dims <> [] -> pos_dims dims -> mda_ok dims m -> in_shape dims t ->
    mda_get m t = Ret (zn None (m_data m) (pos_spec dims t)).
  Proof.
    intros Hne Hp [E1 E2] Hs. unfold mda_get. rewrite (compare_shape_ok dims) by assumption. simpl.
    rewrite E1, mda_position_spec. apply lget_ok. rewrite E2. apply pos_spec_bound; assumption.
  Qed.

  Lemma mda_set_ok dims m t e : pos_dims dims -> mda_ok dims m -> in_shape dims t ->
    mda_set m t e = Ret (Mda (m_sizes m) (zupd (m_data m) (pos_spec dims t) e)).
  Proof.
    intros Hp [E1 E2] Hs. unfold mda_set. rewrite (compare_shape_ok dims) by assumption. simpl.
    rewrite E1, mda_position_spec, aset_ok; [reflexivity|]. rewrite E2. apply pos_spec_bound; assumption.
  Qed.

  (** a history of in-range writes and fills *)
  Definition mda_op_ok (dims : list Z) (o : mda_op A) : Prop :=
    match o with MSet t _ => in_shape dims t | MFill _ => True end.

  Definition tuple_eqb (t u : list Z) : bool := if list_eq_dec Z.eq_dec t u then true else false.

  (** effect of one call on the cell at [t], told from the call alone *)
  Definition mcell_after (t : list Z) (old : option A) (o : mda_op A) : option A :=
    match o with
    | MSet u e => if tuple_eqb u t then e else old
    | MFill v => match conv v with Ret w => Some w | _ => old end
    end.

  Lemma mda_step_ok dims m o t : dims <> [] -> pos_dims dims -> mda_ok dims m -> mda_op_ok dims o -> in_shape dims t ->
    mda_ok dims (mda_step conv m o) /\
    zn None (m_data (mda_step conv m o)) (pos_spec dims t) = mcell_after t (zn None (m_data m) (pos_spec dims t)) o.
  Proof.
    intros Hne Hp Hm Ho Ht. destruct o as [u e|v]; unfold mda_step; cbn [mda_op_ok] in Ho.
    - rewrite (mda_set_ok dims) by assumption. cbn [step_keep m_data mcell_after].
      destruct Hm as [E1 E2]. split; [split; [exact E1|]; cbn [m_data]; rewrite len_zupd; exact E2|].
      pose proof (pos_spec_bound dims _ Hp Ho). pose proof (pos_spec_bound dims _ Hp Ht).
      rewrite zn_zupd by lia. unfold tuple_eqb.
      destruct (list_eq_dec Z.eq_dec u t) as [->|Hn]; [rewrite Z.eqb_refl; reflexivity|].
      destruct (Z.eqb_spec (pos_spec dims u) (pos_spec dims t)) as [E|]; [|reflexivity].
      exfalso; apply Hn. eapply pos_spec_inj; eauto.
    - unfold mda_fill. cbn [mcell_after]. destruct (conv v) as [w| |]; simpl; auto.
      rewrite fill_loop. cbn [bind step_keep m_data]. destruct Hm as [E1 E2].
      split; [split; [exact E1|cbn [m_data]; rewrite len_repeat; exact E2]|].
      apply zn_repeat. change (Z.of_nat (length (m_data m))) with (len (m_data m)). rewrite E2. apply pos_spec_bound; assumption.
  Qed.

  Lemma mda_history dims ops t : dims <> [] -> pos_dims dims -> in_shape dims t -> Forall (mda_op_ok dims) ops ->
    exists m0, mda_new dims = Ret m0 /\ mda_shape m0 = dims /\
      mda_shape (mda_run conv ops m0) = dims /\
      mda_get (mda_run conv ops m0) t = Ret (fold_left (mcell_after t) ops None).
  Proof.
    intros Hne Hp Ht Ho.
    eexists; split; [apply mda_new_ok; assumption|].
    set (m0 := Mda _ _).
    assert (Hsh : forall m, mda_ok dims m -> mda_shape m = dims).
    { intros m [E _]. unfold mda_shape. rewrite E. clear -Hp.
      induction dims as [|d ds IH]; [reflexivity|]. cbn [sufprods mda_shape_loop].
      inversion Hp; subst. specialize (IH H2). destruct (sufprods_hd ds) as [r Er].
      pose proof (prod_pos ds H2). rewrite Er in *. cbn [mda_shape_loop] in *. f_equal; [|exact IH].
      simpl. rewrite Z.div_mul by lia. reflexivity. }
    assert (H0 : mda_ok dims m0).
    { split; [reflexivity|]. simpl. rewrite len_repeat. pose proof (prod_pos dims Hp). lia. }
    assert (G : forall m, mda_ok dims m ->
              mda_ok dims (mda_run conv ops m) /\
              zn None (m_data (mda_run conv ops m)) (pos_spec dims t) =
              fold_left (mcell_after t) ops (zn None (m_data m) (pos_spec dims t))).
    { induction Ho as [|o ops Hoo Ho IH]; intros m Hm; [split; [exact Hm|reflexivity]|].
      unfold mda_run in *. simpl. destruct (mda_step_ok dims m o t) as [Hk Hc]; try assumption.
      destruct (IH _ Hk) as [I1 I2]. split; [exact I1|]. rewrite I2, Hc. reflexivity. }
    destruct (G _ H0) as [Hr Hc].
    repeat split; [apply Hsh; exact H0|apply Hsh; exact Hr|].
    rewrite (mda_get_ok dims) by assumption. rewrite Hc. do 2 f_equal.
    unfold m0; cbn [m_data]. apply zn_repeat. pose proof (pos_spec_bound dims t Hp Ht). lia.
  Qed.

  (** C03, the parts that hold *)
  Lemma mda_get_arity dims m t : mda_ok dims m -> len t <> len dims -> mda_get m t = Raise IndexError.
  Proof.
    intros [E _] H. unfold mda_get, mda_compare_shape. rewrite E, sufprods_len.
    destruct (Z.eqb_spec (len t) (len dims + 1 - 1)); [lia|]. reflexivity.
  Qed.

  (** last coordinate too large *)
  Lemma mda_get_last dims m t d i : mda_ok (dims ++ [d]) m -> length t = length dims -> d <= i ->
    mda_get m (t ++ [i]) = Raise IndexError.
  Proof.
    intros [E _] Hl Hi. unfold mda_get, mda_compare_shape. rewrite E, sufprods_len, !len_app.
    destruct (negb _); [reflexivity|].
    replace (existsb _ _) with true; [reflexivity|]. symmetry. clear E m.
    revert dims Hl. induction t as [|x t IH]; intros [|d0 dims] Hl; simpl in Hl; try lia.
    - simpl. destruct (Z.leb_spec (d * 1) i); [reflexivity|lia].
    - simpl. apply orb_true_iff. right. apply IH. lia.
  Qed.

  (** first coordinate too large, others non-negative *)
  Lemma mda_get_first d ds m i t : mda_ok (d :: ds) m -> pos_dims (d :: ds) -> Forall (fun x => 0 <= x) t -> d <= i ->
    mda_get m (i :: t) = Raise IndexError.
  Proof.
    intros [E1 E2] Hp Ht Hi. unfold mda_get.
    destruct (mda_compare_shape m (i :: t)) eqn:Ec; simpl.
    - rewrite E1, mda_position_spec. simpl.
      assert (Hpos : forall ds, pos_dims ds -> 0 <= pos_spec ds t).
      { clear -Ht. induction Ht as [|x t Hx Ht IH]; intros [|d ds] Hp; simpl; try lia.
        inversion Hp; subst. specialize (IH ds H2). pose proof (prod_pos ds H2). nia. }
      inversion Hp; subst. specialize (Hpos ds H2). pose proof (prod_pos ds H2). simpl in E2.
      unfold lget. destruct (Z.ltb_spec (prod ds * i + pos_spec ds t) 0); [nia|].
      apply aget_err. right. rewrite E2. nia.
    - unfold mda_compare_shape in Ec. destruct (negb _); [inversion Ec; reflexivity|].
      destruct (existsb _ _); [inversion Ec; reflexivity|discriminate].
    - unfold mda_compare_shape in Ec. destruct (negb _); [discriminate|]. destruct (existsb _ _); discriminate.
  Qed.
End MDA.

(** ** C04 / C05 *)
Section DODA.
  Context {A : Type}.

  (** the non-None values in index order *)
  Definition content (data : list (option A)) : list A :=
    flat_map (fun o => match o with Some v => [v] | None => [] end) data.

  Lemma content_app a b : content (a ++ b) = content a ++ content b.
  Proof. apply flat_map_app. Qed.
  Lemma content_repeat n : content (repeat None n) = [].
  Proof. induction n; simpl; auto. Qed.
  Lemma content_map_some l : content (map Some l) = l.
  Proof. induction l as [|x l IH]; simpl; [reflexivity|]. rewrite IH; reflexivity. Qed.
  Lemma content_length_le a : len (content a) <= len a.
  Proof.
    induction a as [|[x|] a IH]; [unfold len; simpl; lia| |]; rewrite ?len_cons in *.
    - change (content (Some x :: a)) with (x :: content a). rewrite len_cons; lia.
    - change (content (None :: a)) with (content a). lia.
  Qed.

  Record doda_inv (d : doda A) : Prop :=
    { di_size : len (d_data d) = d_size d;
      di_last : -1 <= d_last d < d_size d;
      di_tail : forall i, d_last d < i < d_size d -> zn None (d_data d) i = None;
      di_num  : d_num d = len (content (d_data d));
      di_lf   : 0 < d_ln d /\ 2 * d_ln d <= d_ld d }.

  Lemma content_firstn_tail (a : list (option A)) n :
    (forall i, (n <= i < length a)%nat -> nth i a None = None) ->
    content (firstn n a) = content a.
  Proof.
    intros H. rewrite <- (firstn_skipn n a) at 2. rewrite content_app.
    assert (E : content (skipn n a) = []).
    { revert n H; induction a as [|x a IH]; intros n H; [rewrite skipn_nil; reflexivity|].
      destruct n; simpl.
      - assert (Hx : x = None) by (apply (H 0%nat); simpl; lia). subst x. simpl.
        apply (IH 0%nat). intros i Hi. apply (H (S i)). simpl; lia.
      - apply IH. intros i Hi. apply (H (S i)). simpl; lia. }
    rewrite E, app_nil_r. reflexivity.
  Qed.

  Lemma inv_content_firstn d : doda_inv d -> content (firstn (Z.to_nat (d_last d + 1)) (d_data d)) = content (d_data d).
  Proof.
    intros I. apply content_firstn_tail. intros i Hi.
    pose proof (di_size _ I) as E. unfold len in E. pose proof (di_last _ I).
    specialize (di_tail _ I (Z.of_nat i)). unfold zn. rewrite Nat2Z.id. intros H1; apply H1. lia.
  Qed.

  Lemma content_firstn_S (a : list (option A)) i : 0 <= i < len a ->
    content (firstn (Z.to_nat (i + 1)) a) = content (firstn (Z.to_nat i) a) ++
      match zn None a i with Some v => [v] | None => [] end.
  Proof.
    intros H. unfold len in H. replace (Z.to_nat (i + 1)) with (S (Z.to_nat i)) by lia.
    rewrite (firstn_S_nth _ None) by lia. rewrite content_app. unfold zn. simpl.
    destruct (nth _ _ _); simpl; rewrite ?app_nil_r; reflexivity.
  Qed.

  Lemma content_firstn_le (a : list (option A)) n : len (content (firstn n a)) <= len (content a).
  Proof. rewrite <- (firstn_skipn n a) at 2. rewrite content_app, len_app. pose proof (len_nonneg _ (content (skipn n a))). lia. Qed.

  Lemma doda_compact_spec d : doda_inv d ->
    doda_compact d = Ret (map Some (content (d_data d)) ++ repeat None (Z.to_nat (d_num d + 1)), d_num d).
  Proof.
    intros I. pose proof (di_last _ I) as Hl. pose proof (di_size _ I) as Hs. pose proof (di_num _ I) as Hn.
    pose proof (len_nonneg _ (content (d_data d))) as Hnn.
    unfold doda_compact.
    match goal with |- ?m = _ =>
      assert (W : wp m (fun r => r = (map Some (content (d_data d)) ++ repeat None (Z.to_nat (d_num d + 1)), d_num d)))
    end.
    { apply wp_for_range with (I := fun i '(arr, j) =>
        j = len (content (firstn (Z.to_nat i) (d_data d))) /\
        arr = map Some (content (firstn (Z.to_nat i) (d_data d))) ++ repeat None (Z.to_nat (2 * d_num d + 1 - j))).
      - simpl. split; [reflexivity|]. f_equal. lia.
      - intros i [arr j] Hi [Ej Ea]. rewrite (lget_ok _ None) by lia. cbn [bind].
        pose proof (content_firstn_S (d_data d) i ltac:(lia)) as Ec.
        pose proof (content_firstn_le (d_data d) (Z.to_nat (i+1))) as Hle.
        destruct (zn None (d_data d) i) as [v|] eqn:Ev.
        + rewrite (aget_ok _ None) by lia. cbn [bind]. rewrite Ev.
          rewrite Ec, len_app in Hle. change (len [v]) with 1 in Hle.
          apply wp_bind. apply wp_aset.
          * rewrite Ea, len_app, len_map, len_repeat. pose proof (len_nonneg _ (content (firstn (Z.to_nat i) (d_data d)))). lia.
          * simpl. rewrite Ec, len_app. change (len [v]) with 1. split; [lia|].
            rewrite Ea. unfold zupd.
            replace (Z.to_nat j) with (length (map Some (content (firstn (Z.to_nat i) (d_data d))))) by (rewrite map_length; unfold len in Ej; lia).
            rewrite upd_repeat_frontier by lia. rewrite map_app. simpl. f_equal. f_equal. lia.
        + simpl. rewrite Ec, app_nil_r. auto.
      - intros [arr j] [Ej Ea]. replace (Z.max 0 (d_last d + 1)) with (d_last d + 1) in * by lia.
        rewrite inv_content_firstn in * by assumption. subst. f_equal; [|lia]. do 2 f_equal. lia. }
    apply wp_ex in W. destruct W as (r & E & ->). exact E.
  Qed.

  (** density as promised by the load factor; an empty array keeps at most one cell *)
  Definition dense (d : doda A) : Prop :=
    d_ln d * d_size d <= d_num d * d_ld d \/ (d_num d = 0 /\ d_size d <= 1).

  Lemma doda_modify_spec d : doda_inv d -> 0 < d_size d ->
    exists d', doda_modify d = Ret d' /\ doda_inv d' /\ content (d_data d') = content (d_data d) /\
      d_ln d' = d_ln d /\ d_ld d' = d_ld d /\ d_num d' = d_num d /\ 0 < d_size d' /\
      (3 * d_ln d <= d_ld d -> dense d') /\
      (d_num d * d_ld d < d_ln d * d_size d \/ d' = d) /\
      (d_num d * d_ld d < d_ln d * d_size d -> d_data d' = map Some (content (d_data d)) ++ repeat None (Z.to_nat (d_num d + 1))
         /\ d_last d' = d_num d - 1 /\ d_size d' = 2 * d_num d + 1).
  Proof.
    intros I Hp. pose proof (di_num _ I) as Hn. pose proof (len_nonneg _ (content (d_data d))) as Hnn.
    destruct (di_lf _ I) as [Hl1 Hl2].
    unfold doda_modify. destruct (Z.eqb_spec (d_size d) 0); [lia|].
    destruct (Z.ltb_spec (d_num d * d_ld d) (d_ln d * d_size d)) as [Hlt|Hge].
    - rewrite doda_compact_spec by assumption. simpl. eexists; split; [reflexivity|]. simpl.
      rewrite content_app, content_map_some, content_repeat, app_nil_r.
      repeat split; simpl; auto; try lia.
      + rewrite len_app, len_map, len_repeat. lia.
      + intros i Hi. unfold zn. rewrite app_nth2 by (rewrite map_length; unfold len in Hn; lia).
        destruct (nth_in_or_default (Z.to_nat i - length (map Some (content (d_data d)))) (repeat (@None A) (Z.to_nat (d_num d + 1))) None) as [Hin|]; [|assumption].
        apply repeat_spec in Hin. exact Hin.
      + rewrite content_app, content_map_some, content_repeat, app_nil_r. exact Hn.
      + intros H3. unfold dense; simpl. destruct (Z.eq_dec (d_num d) 0) as [E|E]; [right; rewrite E; split; lia|left; nia].
    - exists d. repeat split; auto; try lia; try apply I. intros _. left. lia.
  Qed.

  Lemma doda_append_spec d x : doda_inv d -> exists d', doda_append d x = Ret d' /\ doda_inv d' /\
      content (d_data d') = content (d_data d) ++ [x] /\ d_ln d' = d_ln d /\ d_ld d' = d_ld d /\
      d_num d' = d_num d + 1 /\ (0 < d_size d' /\ (d_last d' = d_last d + 1 \/ d_last d' = d_num d' - 1)) /\ (3 * d_ln d <= d_ld d -> dense d').
  Proof.
    intros I. pose proof (di_last _ I) as Hl. pose proof (di_size _ I) as Hs. pose proof (di_num _ I) as Hn.
    unfold doda_append.
    set (m := if d_last d + 1 =? d_size d then _ else _).
    assert (W : exists d1, m = Ret d1 /\ doda_inv (Doda (d_data d1) (d_size d1) (d_num d1 + 1) (d_last d1 + 1) (d_ln d1) (d_ld d1))
        /\ content (d_data d1) = content (d_data d) ++ [x] /\ d_ln d1 = d_ln d /\ d_ld d1 = d_ld d /\ d_num d1 = d_num d /\ 0 < d_size d1 /\ d_last d1 = d_last d).
    { subst m. destruct (Z.eqb_spec (d_last d + 1) (d_size d)) as [El|El].
      - match goal with |- context [forM ?l ?b ?s] =>
          assert (E : forM l b s = Ret (d_data d ++ repeat None (Z.to_nat (d_size d + 1)))) end.
        { match goal with |- ?m = _ => assert (W : wp m (fun r => r = (d_data d ++ repeat None (Z.to_nat (d_size d + 1))))) end.
          { apply wp_for_range with (I := fun i arr => arr = firstn (Z.to_nat i) (d_data d) ++ repeat None (Z.to_nat (2 * d_size d + 1 - i))).
            - simpl. do 2 f_equal; lia.
            - intros i arr Hi ->. rewrite (aget_ok _ None) by lia. cbn [bind]. apply wp_aset.
              + rewrite len_app, len_repeat. unfold len. rewrite firstn_length. unfold len in Hs. lia.
              + unfold zupd. replace (Z.to_nat (i+1)) with (S (Z.to_nat i)) by lia.
                unfold len in Hs. rewrite (firstn_S_nth _ None) by lia.
                replace (Z.to_nat i) with (length (firstn (Z.to_nat i) (d_data d))) at 2 by (rewrite firstn_length; lia).
                rewrite upd_repeat_frontier by lia. unfold zn. f_equal. f_equal. lia.
            - intros arr ->. rewrite firstn_all2 by (unfold len in Hs; lia). do 2 f_equal. lia. }
          apply wp_ex in W. destruct W as (r & E & ->). exact E. }
        rewrite E. cbn [bind]. rewrite aset_ok by (rewrite len_app, len_repeat; lia). cbn [bind].
        eexists; split; [reflexivity|]. simpl.
        assert (Eu : zupd (d_data d ++ repeat None (Z.to_nat (d_size d + 1))) (d_last d + 1) (Some x)
                     = (d_data d ++ [Some x]) ++ repeat None (Z.to_nat (d_size d))).
        { unfold zupd. replace (Z.to_nat (d_last d + 1)) with (length (d_data d)) by (unfold len in Hs; lia).
          rewrite upd_repeat_frontier by lia. f_equal. f_equal. lia. }
        rewrite Eu. rewrite !content_app, content_repeat, app_nil_r. simpl.
        repeat split; simpl; try lia; try apply I.
        + rewrite !len_app, len_repeat. change (len [Some x]) with 1. lia.
        + intros i Hi. unfold zn. rewrite app_nth2 by (rewrite app_length; simpl; unfold len in Hs; lia).
          destruct (nth_in_or_default (Z.to_nat i - length (d_data d ++ [Some x])) (repeat (@None A) (Z.to_nat (d_size d))) None) as [Hin|]; [|assumption].
          apply repeat_spec in Hin. exact Hin.
        + rewrite !content_app, content_repeat, app_nil_r, len_app. simpl. change (len [x]) with 1. lia.
      - rewrite aset_ok by lia. cbn [bind]. eexists; split; [reflexivity|]. simpl.
        assert (Ec : content (zupd (d_data d) (d_last d + 1) (Some x)) = content (d_data d) ++ [x]).
        { rewrite <- (inv_content_firstn d I).
          unfold zupd. rewrite upd_split by (unfold len in Hs; lia). rewrite content_app. f_equal.
          change (Some x :: skipn (S (Z.to_nat (d_last d + 1))) (d_data d)) with ([Some x] ++ skipn (S (Z.to_nat (d_last d + 1))) (d_data d)).
          rewrite content_app. simpl. f_equal.
          assert (E0 := content_firstn_tail (d_data d) (S (Z.to_nat (d_last d + 1)))).
          assert (E1 := inv_content_firstn d I).
          rewrite <- (firstn_skipn (S (Z.to_nat (d_last d + 1))) (d_data d)) in E1 at 2.
          rewrite content_app in E1. unfold len in Hs. rewrite (firstn_S_nth _ None) in E1 by lia.
          rewrite content_app, <- app_assoc in E1.
          rewrite <- app_nil_r in E1 at 1. apply app_inv_head in E1. symmetry in E1. apply app_eq_nil in E1. apply E1. }
        rewrite Ec. repeat split; simpl; try lia; try apply I.
        + rewrite len_zupd; exact Hs.
        + intros i Hi. rewrite zn_zupd_ne by lia. apply (di_tail _ I). lia.
        + rewrite Ec, len_app. change (len [x]) with 1. lia. }
    destruct W as (d1 & -> & I1 & Ec & E1 & E2 & E3 & Hp & E4). cbn [bind].
    destruct (doda_modify_spec _ I1) as (d' & Em & I' & Ec' & F1 & F2 & F3 & F4 & F5 & F6 & F7); [exact Hp|].
    exists d'. rewrite Em. simpl in *. split; [reflexivity|]. split; [exact I'|]. rewrite Ec', Ec, F1, F2, F3, E1, E2, E3.
    split; [reflexivity|]. split; [reflexivity|]. split; [reflexivity|]. split; [reflexivity|].
    split; [split; [exact F4|]|intros H3; apply F5; rewrite E1, E2; exact H3].
    destruct F6 as [F6|F6]; [destruct (F7 F6) as (_ & F8 & _); right; lia|left; rewrite F6; simpl; lia].
  Qed.

  Lemma content_upd_none (a : list (option A)) i v : 0 <= i < len a -> zn None a i = Some v ->
    content a = content (firstn (Z.to_nat i) a) ++ v :: content (skipn (S (Z.to_nat i)) a) /\
    content (zupd a i None) = content (firstn (Z.to_nat i) a) ++ content (skipn (S (Z.to_nat i)) a).
  Proof.
    intros Hi E. unfold len in Hi. split.
    - rewrite (list_split_nth _ a (Z.to_nat i) None) at 1 by lia.
      rewrite content_app. unfold zn in E. rewrite E. reflexivity.
    - unfold zupd. rewrite upd_split by lia. rewrite content_app. reflexivity.
  Qed.

  Lemma doda_delete_spec d i : doda_inv d -> 
    match doda_get d i with
    | Ret (Some v) => exists d' l1 l2, doda_delete d i = Ret d' /\ doda_inv d' /\ 
        content (d_data d) = l1 ++ v :: l2 /\ l1 = content (firstn (Z.to_nat i) (d_data d)) /\
        content (d_data d') = l1 ++ l2 /\ d_ln d' = d_ln d /\ d_ld d' = d_ld d /\ d_num d' = d_num d - 1 /\
        (0 < d_size d' /\ (d_last d' = (if d_last d =? i then d_last d - 1 else d_last d) \/ d_last d' = d_num d' - 1)) /\
        (3 * d_ln d <= d_ld d -> dense d')
    | _ => doda_delete d i = Ret d
    end.
  Proof.
    intros I. pose proof (di_last _ I) as Hl. pose proof (di_size _ I) as Hs. pose proof (di_num _ I) as Hn.
    unfold doda_get, doda_delete.
    destruct (Z.leb_spec (d_size d) i); [simpl; destruct (Z.leb_spec i (d_last d)); [lia|reflexivity]|].
    destruct (Z.ltb_spec i 0); [simpl; destruct (Z.leb_spec 0 i); [lia|rewrite andb_false_r; reflexivity]|].
    simpl. rewrite (lget_ok _ None) by lia. rewrite (aget_ok _ None) by lia.
    destruct (Z.leb_spec 0 i); [|lia]. rewrite andb_true_r.
    destruct (zn None (d_data d) i) as [v|] eqn:Ev.
    2:{ destruct (_ <=? _); reflexivity. }
    destruct (Z.leb_spec i (d_last d)) as [Hi|Hi].
    2:{ rewrite (di_tail _ I) in Ev by lia. discriminate. }
    cbn [bind]. rewrite aset_ok by lia. cbn [bind].
    destruct (content_upd_none (d_data d) i v ltac:(lia) Ev) as [C1 C2].
    set (d1 := Doda _ _ _ _ _ _).
    assert (I1 : doda_inv d1).
    { subst d1. repeat split; simpl; try apply I.
      - rewrite len_zupd; exact Hs.
      - destruct (Z.eqb_spec (d_last d) i); lia.
      - destruct (Z.eqb_spec (d_last d) i); lia.
      - intros k Hk. destruct (Z.eq_dec k i) as [->|Hne]; [apply zn_zupd_eq; lia|].
        rewrite zn_zupd_ne; [|lia|destruct (Z.eqb_spec (d_last d) i); lia|congruence].
        apply (di_tail _ I). destruct (Z.eqb_spec (d_last d) i); lia.
      - rewrite C2, Hn, C1, !len_app, len_cons. lia. }
    destruct (doda_modify_spec d1 I1) as (d' & Em & I' & Ec' & F1 & F2 & F3 & F4 & F5 & F6 & F7); [simpl; lia|].
    exists d', (content (firstn (Z.to_nat i) (d_data d))), (content (skipn (S (Z.to_nat i)) (d_data d))).
    rewrite Em. subst d1; simpl in *.
    split; [reflexivity|]. split; [exact I'|]. split; [exact C1|]. split; [reflexivity|]. split; [rewrite Ec'; exact C2|].
    split; [exact F1|]. split; [exact F2|]. split; [lia|]. split; [split; [exact F4|]|exact F5].
    destruct F6 as [F6|F6]; [destruct (F7 F6) as (_ & F8 & _); right; lia|left; rewrite F6; reflexivity].
  Qed.

  Lemma doda_inv_new n ln ld : 0 <= n -> 0 < ln -> 2 * ln <= ld -> doda_inv (doda_new_size n ln ld).
  Proof.
    intros H0 H1 H2. repeat split; simpl; try lia.
    - rewrite len_repeat; lia.
    - intros i Hi. apply zn_repeat. lia.
    - rewrite content_repeat. reflexivity.
  Qed.
  Lemma doda_inv_list l ln ld : 0 < ln -> 2 * ln <= ld -> doda_inv (doda_new_list l ln ld).
  Proof.
    intros H1 H2. pose proof (len_nonneg _ l). repeat split; simpl; try lia.
    - apply len_map.
    - rewrite content_map_some. reflexivity.
  Qed.

  Lemma doda_run_spec ops : forall d, doda_inv d -> exists d', doda_run ops d = Ret d' /\ doda_inv d' /\
    d_ln d' = d_ln d /\ d_ld d' = d_ld d /\
    (3 * d_ln d <= d_ld d -> dense d -> dense d').
  Proof.
    induction ops as [|o ops IH]; intros d I; unfold doda_run in *; simpl.
    - exists d; auto.
    - assert (W : exists d1, doda_step d o = Ret d1 /\ doda_inv d1 /\ d_ln d1 = d_ln d /\ d_ld d1 = d_ld d /\
         (3 * d_ln d <= d_ld d -> dense d -> dense d1)).
      { destruct o as [x|i]; simpl.
        - destruct (doda_append_spec d x I) as (d1 & E & I1 & _ & E1 & E2 & _ & _ & D). exists d1; repeat split; auto; apply I1.
        - pose proof (doda_delete_spec d i I) as S. destruct (doda_get d i) as [[v|]| |].
          + destruct S as (d1 & l1 & l2 & E & I1 & _ & _ & _ & E1 & E2 & _ & _ & D). exists d1; repeat split; auto; apply I1.
          + exists d; auto.
          + exists d; auto.
          + exists d; auto. }
      destruct W as (d1 & -> & I1 & E1 & E2 & D). simpl.
      destruct (IH d1 I1) as (d' & E & I' & F1 & F2 & D'). exists d'. rewrite E, F1, F2, E1, E2.
      repeat split; auto; try apply I'. intros H3 Hd. apply D'; [rewrite E1, E2; exact H3|]. apply D; assumption.
  Qed.
End DODA.

(** ** C04, C05 at the level of histories *)
Section DodaHist.
  Context {A : Type}.
  (** the ways to construct an array: from a size or from a list, with load factor ln/ld <= 1/2 *)
  Definition doda_start (ln ld : Z) (d : doda A) : Prop :=
    0 < ln /\ 2 * ln <= ld /\
    ((exists n, 0 <= n /\ d = doda_new_size n ln ld) \/ (exists l, d = doda_new_list l ln ld)).

  Lemma doda_start_inv ln ld d : doda_start ln ld d -> doda_inv d.
  Proof.
    intros (H1 & H2 & [(n & Hn & ->)|(l & ->)]); [apply doda_inv_new; assumption|apply doda_inv_list; assumption].
  Qed.

  Lemma doda_history ln ld d0 ops : doda_start ln ld d0 ->
    exists d, doda_run ops d0 = Ret d /\ d_num d = len (content (d_data d)) /\ len (d_data d) = d_size d /\
      (forall x, exists d', doda_append d x = Ret d' /\ content (d_data d') = content (d_data d) ++ [x]) /\
      (forall i, match doda_get d i with
                 | Ret (Some v) => exists d' l2,
                     content (d_data d) = content (firstn (Z.to_nat i) (d_data d)) ++ v :: l2 /\
                     doda_delete d i = Ret d' /\ content (d_data d') = content (firstn (Z.to_nat i) (d_data d)) ++ l2
                 | _ => doda_delete d i = Ret d
                 end).
  Proof.
    intros Hs. destruct (doda_run_spec ops d0 (doda_start_inv _ _ _ Hs)) as (d & E & I & _).
    exists d. split; [exact E|]. split; [apply (di_num _ I)|]. split; [apply (di_size _ I)|]. split.
    - intros x. destruct (doda_append_spec d x I) as (d' & E' & _ & Ec & _). eauto.
    - intros i. pose proof (doda_delete_spec d i I) as H. destruct (doda_get d i) as [[v|]| |]; auto.
      destruct H as (d' & l1 & l2 & Ed & _ & E1 & -> & E2 & _). eauto.
  Qed.

  Lemma doda_dense ln ld d0 ops o : doda_start ln ld d0 -> 3 * ln <= ld ->
    exists d d', doda_run ops d0 = Ret d /\ doda_step d o = Ret d' /\ d_num d' <= d_size d' /\
      (d' <> d -> ln * d_size d' <= d_num d' * ld \/ (d_num d' = 0 /\ d_size d' <= 1)).
  Proof.
    intros Hs H3. destruct (doda_run_spec ops d0 (doda_start_inv _ _ _ Hs)) as (d & E & I & E1 & E2 & _).
    assert (L : d_ln d = ln /\ d_ld d = ld).
    { rewrite E1, E2. destruct Hs as (_ & _ & [(n & _ & ->)|(l & ->)]); split; reflexivity. }
    destruct L as [L1 L2].
    assert (Hcap : forall d1 : doda A, doda_inv d1 -> d_num d1 <= d_size d1).
    { intros d1 I1. rewrite (di_num _ I1), <- (di_size _ I1). unfold len.
      pose proof (content_length_le (d_data d1)). unfold len in *. lia. }
    exists d. destruct o as [x|i]; simpl.
    - destruct (doda_append_spec d x I) as (d' & E' & I' & _ & F1 & F2 & _ & _ & D). exists d'.
      split; [exact E|]. split; [exact E'|]. split; [apply Hcap, I'|]. intros _.
      specialize (D ltac:(lia)). unfold dense in D. rewrite F1, F2, L1, L2 in D. exact D.
    - pose proof (doda_delete_spec d i I) as H. destruct (doda_get d i) as [[v|]| |].
      + destruct H as (d' & l1 & l2 & Ed & I' & _ & _ & _ & F1 & F2 & _ & _ & D). exists d'.
        split; [exact E|]. split; [exact Ed|]. split; [apply Hcap, I'|]. intros _.
        specialize (D ltac:(lia)). unfold dense in D. rewrite F1, F2, L1, L2 in D. exact D.
      + exists d. split; [exact E|]. split; [exact H|]. split; [apply Hcap, I|congruence].
      + exists d. split; [exact E|]. split; [exact H|]. split; [apply Hcap, I|congruence].
      + exists d. split; [exact E|]. split; [exact H|]. split; [apply Hcap, I|congruence].
  Qed.
End DodaHist.

(** ** C03 at the level of histories *)
Section MdaReject.
  Context {A : Type} (conv : A -> res A).
  Lemma aset_len V (a a' : list V) i v : aset a i v = Ret a' -> len a' = len a.
  Proof.
    unfold aset. destruct (_ || _); [discriminate|]. intros E; injection E as <-. apply len_upd.
  Qed.
  Lemma mda_fill_loop_len l (w : option A) : forall a a', forM l (fun i d => aset d i w) a = Ret a' -> len a' = len a.
  Proof.
    induction l as [|x l IH]; intros a a' E; simpl in E; [congruence|].
    destruct (aset a x w) as [b| |] eqn:E1; try discriminate. simpl in E. apply IH in E. apply aset_len in E1. congruence.
  Qed.
  Lemma mda_run_keeps_ok dims ops : forall m, mda_ok dims m -> mda_ok dims (mda_run conv ops m).
  Proof.
    induction ops as [|o ops IH]; intros m H; [exact H|]. unfold mda_run in *. simpl. apply IH.
    destruct H as [H1 H2]. unfold mda_step, step_keep. destruct o as [t e|v].
    - unfold mda_set. destruct (mda_compare_shape m t); [|split; assumption|split; assumption]. cbn [bind].
      destruct (aset (m_data m) _ e) as [a'| |] eqn:E; simpl; [|split; assumption|split; assumption].
      split; [exact H1|]. cbn [m_data]. apply aset_len in E. congruence.
    - unfold mda_fill. destruct (conv v) as [w| |]; simpl; [|split; assumption|split; assumption].
      match goal with |- context [forM ?l ?b ?s] => destruct (forM l b s) as [a'| |] eqn:E end; simpl; [|split; assumption|split; assumption].
      split; [exact H1|]. cbn [m_data]. apply mda_fill_loop_len in E. congruence.
  Qed.

  Lemma mda_rejects dims ops : dims <> [] -> pos_dims dims ->
    exists m0, mda_new dims = Ret m0 /\
      (forall t, length t <> length dims -> mda_get (mda_run conv ops m0) t = Raise IndexError) /\
      (forall pre d t i, dims = pre ++ [d] -> length t = length pre -> d <= i -> mda_get (mda_run conv ops m0) (t ++ [i]) = Raise IndexError) /\
      (forall d ds i t, dims = d :: ds -> d <= i -> Forall (fun x => 0 <= x) t -> mda_get (mda_run conv ops m0) (i :: t) = Raise IndexError).
  Proof.
    intros Hne Hp. eexists. split; [apply mda_new_ok; assumption|].
    match goal with |- context [mda_run conv ops ?m] => assert (K : mda_ok dims (mda_run conv ops m)) end.
    { apply mda_run_keeps_ok. split; [reflexivity|]. cbn [m_data]. pose proof (prod_pos dims Hp). rewrite len_repeat. lia. }
    split; [|split].
    - intros t Ht. apply (mda_get_arity dims); [exact K|]. unfold len. lia.
    - intros pre d t i -> Ht Hi. eapply mda_get_last; eauto.
    - intros d ds i t -> Hi Ht. eapply mda_get_first; eauto.
  Qed.
End MdaReject.
