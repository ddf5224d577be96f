(** OneDimensionalArraySegmentTree: the heap represents a tree of range folds. *)
From Verif Require Import Base RangeModel RangeSpec FenwickProofs SparseProofs.

Lemma while_next {S R} (body : S -> res (ctl S R)) s s' f : body s = Ret (Next s') -> while_loop (Datatypes.S f) body s = while_loop f body s'.
Proof. intros E. cbn [while_loop]. rewrite E. reflexivity. Qed.
Lemma while_break {S R} (body : S -> res (ctl S R)) s r f : body s = Ret (Break r) -> while_loop (Datatypes.S f) body s = Ret r.
Proof. intros E. cbn [while_loop]. rewrite E. reflexivity. Qed.
(** [k] rounds of the loop lead from [s] to [s'] *)
Definition runs {S R} (body : S -> res (ctl S R)) (k : nat) (s s' : S) : Prop := forall f, while_loop (k + f) body s = while_loop f body s'.
Lemma runs_one {S R} (body : S -> res (ctl S R)) s s' : body s = Ret (Next s') -> runs body 1 s s'.
Proof. intros E f. apply while_next, E. Qed.
Lemma runs_trans {S R} (body : S -> res (ctl S R)) k1 k2 s1 s2 s3 : runs body k1 s1 s2 -> runs body k2 s2 s3 -> runs body (k1 + k2) s1 s3.
Proof. intros H1 H2 f. rewrite <- Nat.add_assoc, H1. apply H2. Qed.

Lemma nodup_app_r {V} (x y : list V) : NoDup (x ++ y) -> NoDup y.
Proof. induction x as [|a x IH]; intros H; [exact H|]. inversion H; auto. Qed.
Lemma nodup_app_l {V} (x y : list V) : NoDup (x ++ y) -> NoDup x.
Proof. induction x as [|a x IH]; intros H; [constructor|]. inversion H; subst. constructor; [intros Ha; apply H2, in_or_app; left; exact Ha|auto]. Qed.
Inductive stree := SL (a : nat) | SN (a : nat) (l r : stree).
Definition addr (t : stree) : nat := match t with SL a => a | SN a _ _ => a end.
Fixpoint addrs (t : stree) : list nat := match t with SL a => [a] | SN a l r => a :: addrs l ++ addrs r end.
Lemma addr_in t : In (addr t) (addrs t). Proof. destruct t; left; reflexivity. Qed.

Section G.
  Context {V : Type} (func : combiner V) (op : V -> V -> V) (CB : combines func op) (d : V).
  Notation heap := (list (scell V)).
  Notation rf := (rf op).

  Definition cellw (s e : Z) (x : option V) (l r : option nat) : scell V := {| s_start := s; s_end := e; s_data := x; s_left := l; s_right := r |}.
  Fixpoint rep (g : list V) (h : heap) (t : stree) (s e : Z) : Prop :=
    match t with
    | SL a => s = e /\ nth_error h a = Some (cellw s e (rf g s e) None None)
    | SN a l r => s < e /\ nth_error h a = Some (cellw s e (rf g s e) (Some (addr l)) (Some (addr r))) /\
        rep g h l s ((s + e) / 2) /\ rep g h r ((s + e) / 2 + 1) e
    end.
  Lemma mid_bounds s e : s < e -> s <= (s + e) / 2 < e.
  Proof. intros H. split; [apply Z.div_le_lower_bound; lia|apply Z.div_lt_upper_bound; lia]. Qed.
  Lemma rep_le g h t s e : rep g h t s e -> s <= e.
  Proof. destruct t; cbn [rep]; lia. Qed.
  Lemma rep_frame g h h' t : forall s e, rep g h t s e -> (forall b, In b (addrs t) -> nth_error h' b = nth_error h b) -> rep g h' t s e.
  Proof.
    induction t as [a|a l IHl r IHr]; intros s e H F; cbn [rep addrs] in *.
    - rewrite F by (left; reflexivity). exact H.
    - destruct H as (H1 & H2 & H3 & H4). rewrite F by (left; reflexivity). repeat split; auto; [apply IHl|apply IHr]; auto; intros b Hb; apply F; right; apply in_or_app; auto.
  Qed.
  Lemma rep_ext g g' h t : forall s e, rep g h t s e -> (forall l r, s <= l -> r <= e -> rf g l r = rf g' l r) -> rep g' h t s e.
  Proof.
    induction t as [a|a l IHl r IHr]; intros s e H F; cbn [rep] in *.
    - rewrite <- F by lia. exact H.
    - destruct H as (H1 & H2 & H3 & H4). pose proof (mid_bounds s e H1). rewrite <- F by lia. repeat split; auto; [apply IHl|apply IHr]; auto; intros x y Hx Hy; apply F; lia.
  Qed.
  Lemma rep_data g h t s e : rep g h t s e -> exists c, nth_error h (addr t) = Some c /\ s_data c = rf g s e /\ s_start c = s /\ s_end c = e.
  Proof. destruct t; cbn [rep addr]; intros H; [destruct H as [E H]|destruct H as (_ & H & _)]; rewrite H; eexists; repeat split. Qed.

  Lemma sd_nth (h : heap) a x c b : nth_error h a = Some c ->
    nth_error (set_data h a x) b = if (a =? b)%nat then Some (cellw (s_start c) (s_end c) x (s_left c) (s_right c)) else nth_error h b.
  Proof.
    intros E. unfold set_data. rewrite E. rewrite nth_error_upd. destruct (Nat.eqb_spec a b); [|reflexivity]. simpl.
    destruct (Nat.ltb_spec a (length h)); [reflexivity|]. apply nth_error_None in H. congruence.
  Qed.
  Lemma sd_len (h : heap) a x : length (set_data h a x) = length h.
  Proof. unfold set_data. destruct (nth_error h a); [apply length_upd|reflexivity]. Qed.
  Lemma sl_nth (h : heap) a x c b : nth_error h a = Some c ->
    nth_error (set_left h a x) b = if (a =? b)%nat then Some (cellw (s_start c) (s_end c) (s_data c) (Some x) (s_right c)) else nth_error h b.
  Proof.
    intros E. unfold set_left. rewrite E. rewrite nth_error_upd. destruct (Nat.eqb_spec a b); [|reflexivity]. simpl.
    destruct (Nat.ltb_spec a (length h)); [reflexivity|]. apply nth_error_None in H. congruence.
  Qed.
  Lemma sl_len (h : heap) a x : length (set_left h a x) = length h.
  Proof. unfold set_left. destruct (nth_error h a); [apply length_upd|reflexivity]. Qed.
  Lemma sr_nth (h : heap) a x c b : nth_error h a = Some c ->
    nth_error (set_right h a x) b = if (a =? b)%nat then Some (cellw (s_start c) (s_end c) (s_data c) (s_left c) (Some x)) else nth_error h b.
  Proof.
    intros E. unfold set_right. rewrite E. rewrite nth_error_upd. destruct (Nat.eqb_spec a b); [|reflexivity]. simpl.
    destruct (Nat.ltb_spec a (length h)); [reflexivity|]. apply nth_error_None in H. congruence.
  Qed.
  Lemma sr_len (h : heap) a x : length (set_right h a x) = length h.
  Proof. unfold set_right. destruct (nth_error h a); [apply length_upd|reflexivity]. Qed.

  (** ** build *)
  Lemma build_ok (g : list V) : forall n a s e h rest, Z.to_nat (e - s) = n -> 0 <= s -> s <= e -> e < len g -> nth_error h a = Some (cellw s e None None None) ->
    exists k h' t, runs (build_body func g) k (a :: rest, h) (rest, h') /\ (Z.of_nat k <= 3 * (e - s) + 1) /\ rep g h' t s e /\ addr t = a /\
      (length h <= length h')%nat /\ NoDup (addrs t) /\ (forall b, In b (addrs t) -> b = a \/ (length h <= b < length h')%nat) /\
      (forall b, (b < length h)%nat -> b <> a -> nth_error h' b = nth_error h b).
  Proof.
    intros n. induction n as [n IH] using lt_wf_ind. intros a s e h rest En Hs Hse He Ha. assert (Hal : (a < length h)%nat) by (apply nth_error_Some; congruence).
    destruct (Z.eq_dec s e) as [Ese|Hne].
    - subst e. exists 1%nat, (set_data h a (Some (zn d g s))), (SL a). split; [|split; [lia|split; [|split; [|split; [|split; [|split]]]]]].
      + apply runs_one. cbn [build_body]. unfold sget. rewrite Ha. cbn [bind s_start s_end cellw]. rewrite Z.eqb_refl. rewrite (lget_ok V d) by lia. reflexivity.
      + cbn [rep]. split; [reflexivity|]. rewrite (sd_nth _ _ _ _ _ Ha), Nat.eqb_refl. rewrite (rf_one op g d s) by lia. reflexivity.
      + reflexivity.
      + rewrite sd_len. lia.
      + repeat constructor. intros [].
      + intros b [<- | []]. left. reflexivity.
      + intros b Hb Hba. rewrite (sd_nth _ _ _ _ _ Ha). destruct (Nat.eqb_spec a b); [congruence|reflexivity].
    - assert (Hlt : s < e) by lia. pose proof (mid_bounds s e Hlt) as Hm. set (m := (s + e) / 2) in *.
      set (h1 := set_left (h ++ [cellw s m None None None]) a (length h)).
      set (h2 := set_right (h1 ++ [cellw (m + 1) e None None None]) a (S (length h))).
      assert (L1 : length h1 = S (length h)) by (unfold h1; rewrite sl_len, app_length; simpl; lia).
      assert (L2 : length h2 = S (S (length h))) by (unfold h2; rewrite sr_len, app_length, L1; simpl; lia).
      assert (Ha0 : nth_error (h ++ [cellw s m None None None]) a = Some (cellw s e None None None)) by (rewrite nth_error_app1 by exact Hal; exact Ha).
      assert (N1 : forall b, nth_error h1 b = if (a =? b)%nat then Some (cellw s e None (Some (length h)) None) else nth_error (h ++ [cellw s m None None None]) b).
      { intros b. unfold h1. rewrite (sl_nth _ _ _ _ _ Ha0). reflexivity. }
      assert (Ha1 : nth_error (h1 ++ [cellw (m + 1) e None None None]) a = Some (cellw s e None (Some (length h)) None)).
      { rewrite nth_error_app1 by lia. rewrite N1, Nat.eqb_refl. reflexivity. }
      assert (N2 : forall b, nth_error h2 b = if (a =? b)%nat then Some (cellw s e None (Some (length h)) (Some (S (length h)))) else nth_error (h1 ++ [cellw (m + 1) e None None None]) b).
      { intros b. unfold h2. rewrite (sr_nth _ _ _ _ _ Ha1). reflexivity. }
      assert (R1 : runs (build_body func g) 1 (a :: rest, h) (S (length h) :: length h :: a :: rest, h2)).
      { apply runs_one. cbn [build_body]. unfold sget. rewrite Ha. cbn [bind s_start s_end s_left s_right cellw]. destruct (Z.eqb_spec s e); [contradiction|].
        fold m. cbn [new_node]. unfold h2. rewrite <- L1. reflexivity. }
      assert (Hr2 : nth_error h2 (S (length h)) = Some (cellw (m + 1) e None None None)).
      { rewrite N2. destruct (Nat.eqb_spec a (S (length h))); [lia|]. rewrite nth_error_app2 by lia. rewrite L1, Nat.sub_diag. reflexivity. }
      assert (Hl2 : nth_error h2 (length h) = Some (cellw s m None None None)).
      { rewrite N2. destruct (Nat.eqb_spec a (length h)); [lia|]. rewrite nth_error_app1 by lia. rewrite N1. destruct (Nat.eqb_spec a (length h)); [lia|].
        rewrite nth_error_app2 by lia. rewrite Nat.sub_diag. reflexivity. }
      destruct (IH (Z.to_nat (e - (m + 1)))) with (a := S (length h)) (s := m + 1) (e := e) (h := h2) (rest := length h :: a :: rest) as (k1 & h3 & tr & R2 & K1 & P1 & A1 & G1 & D1 & I1 & F1); [lia|reflexivity|lia|lia|lia|exact Hr2|].
      assert (Hl3 : nth_error h3 (length h) = Some (cellw s m None None None)) by (rewrite F1 by lia; exact Hl2).
      destruct (IH (Z.to_nat (m - s))) with (a := length h) (s := s) (e := m) (h := h3) (rest := a :: rest) as (k2 & h4 & tl & R3 & K2 & P2 & A2 & G2 & D2 & I2 & F2); [lia|reflexivity|lia|lia|lia|exact Hl3|].
      assert (P1' : rep g h4 tr (m + 1) e).
      { apply rep_frame with (h := h3); [exact P1|]. intros b Hb. destruct (I1 b Hb) as [->|]; apply F2; lia. }
      assert (Ha4 : nth_error h4 a = Some (cellw s e None (Some (length h)) (Some (S (length h))))).
      { rewrite F2 by lia. rewrite F1 by lia. rewrite N2, Nat.eqb_refl. reflexivity. }
      destruct (rep_data _ _ _ _ _ P1') as (cr & Er & Dr & _). destruct (rep_data _ _ _ _ _ P2) as (cl & El & Dl & _). rewrite A1 in Er. rewrite A2 in El.
      set (h5 := set_data h4 a (c2 func (s_data cl) (s_data cr))).
      assert (N5 : forall b, nth_error h5 b = if (a =? b)%nat then Some (cellw s e (c2 func (s_data cl) (s_data cr)) (Some (length h)) (Some (S (length h)))) else nth_error h4 b).
      { intros b. unfold h5. rewrite (sd_nth _ _ _ _ _ Ha4). reflexivity. }
      assert (Nr : ~ In a (addrs tr)) by (intros Hx; destruct (I1 a Hx) as [|]; lia).
      assert (Nl : ~ In a (addrs tl)) by (intros Hx; destruct (I2 a Hx) as [|]; lia).
      exists (1 + (k1 + (k2 + 1)))%nat, h5, (SN a tl tr). split; [|split; [|split; [|split; [|split; [|split; [|split]]]]]].
      + eapply runs_trans; [exact R1|]. eapply runs_trans; [exact R2|]. eapply runs_trans; [exact R3|]. apply runs_one. cbn [build_body]. unfold sget. rewrite Ha4.
        cbn [bind s_start s_end s_left s_right cellw]. destruct (Z.eqb_spec s e); [contradiction|]. rewrite El. cbn [bind]. rewrite Er. reflexivity.
      + lia.
      + cbn [rep]. split; [exact Hlt|]. fold m. split; [|split].
        * rewrite N5, Nat.eqb_refl, A1, A2, Dl, Dr. do 2 f_equal. rewrite (rf_split func op CB g s (m + 1) e) by lia. do 2 f_equal. lia.
        * apply rep_frame with (h := h4); [exact P2|]. intros b Hb. rewrite N5. destruct (Nat.eqb_spec a b); [subst; contradiction|reflexivity].
        * apply rep_frame with (h := h4); [exact P1'|]. intros b Hb. rewrite N5. destruct (Nat.eqb_spec a b); [subst; contradiction|reflexivity].
      + reflexivity.
      + unfold h5. rewrite sd_len. lia.
      + cbn [addrs]. constructor; [rewrite in_app_iff; tauto|]. clear - D1 D2 I1 I2 L2 G1.
        assert (Hd : forall b, In b (addrs tl) -> ~ In b (addrs tr)).
        { intros b B1 B2. destruct (I2 b B1), (I1 b B2); lia. }
        revert D2 Hd. generalize (addrs tl) as x. induction x as [|y x IHx]; intros D2 Hd; [exact D1|]. inversion D2; subst. simpl. constructor.
        * rewrite in_app_iff. intros [|Hy]; [contradiction|]. apply (Hd y); [left; reflexivity|exact Hy].
        * apply IHx; [assumption|]. intros b Hb. apply Hd. right. exact Hb.
      + unfold h5. rewrite sd_len. intros b [<-|Hb]; [left; reflexivity|]. right. apply in_app_iff in Hb. destruct Hb as [Hb|Hb]; [destruct (I2 b Hb)|destruct (I1 b Hb)]; lia.
      + intros b Hb Hba. rewrite N5. destruct (Nat.eqb_spec a b); [congruence|]. rewrite F2 by lia. rewrite F1 by lia. rewrite N2. destruct (Nat.eqb_spec a b); [congruence|].
        rewrite nth_error_app1 by lia. rewrite N1. destruct (Nat.eqb_spec a b); [congruence|]. apply nth_error_app1. exact Hb.
  Qed.

  (** what the object stands for: contents [g] *)
  Definition st_ok (g : list V) (t : segtree V) : Prop := g <> [] /\ st_array t = g /\
    exists T, st_root t = Some (addr T) /\ NoDup (addrs T) /\ rep g (st_heap t) T 0 (len g - 1).

  Lemma st_build_ok g : g <> [] -> exists t, st_build func (st_new g) = Ret t /\ st_ok g t.
  Proof.
    intros Hg. assert (Hl : 0 < len g) by (destruct g; [contradiction|unfold len; cbn [length]; lia]).
    destruct (build_ok g (Z.to_nat (len g - 1 - 0)) 0 0 (len g - 1) [cellw 0 (len g - 1) None None None] []) as (k & h' & T & R & K & P & A & _ & D & _); [reflexivity|lia|lia|lia|reflexivity|].
    exists {| st_array := g; st_heap := h'; st_root := Some 0%nat |}. split.
    - unfold st_build, st_build_fuel, st_new. cbn [st_root st_heap st_array new_node length app]. fold (cellw 0 (len g - 1) None None None).
      assert (Ef : exists f, (4 * length g + 1)%nat = (k + S f)%nat) by (exists (4 * length g - k)%nat; unfold len in *; lia). destruct Ef as [f ->]. rewrite R.
      rewrite (while_break _ _ h' f) by reflexivity. reflexivity.
    - split; [exact Hg|]. split; [reflexivity|]. exists T. cbn [st_root st_heap]. rewrite A. auto.
  Qed.

  (** ** query *)
  Lemma query_rec_ok g h T : forall s e l r fuel, rep g h T s e -> 0 <= s -> (Z.to_nat (e - s) < fuel)%nat ->
    st_query_rec func fuel h (Some (addr T)) s e l r = Ret (rf g (Z.max s l) (Z.min e r)).
  Proof.
    induction T as [a|a tl IHl tr IHr]; intros s e l r fuel P Hs Hf; (destruct fuel as [|f]; [lia|]); cbn [st_query_rec].
    - cbn [rep] in P. destruct P as [<- P]. destruct (Z.ltb_spec r s); [unfold SparseProofs.rf; rewrite range_empty by lia; reflexivity|].
      destruct (Z.ltb_spec s l); [unfold SparseProofs.rf; rewrite range_empty by lia; reflexivity|]. cbn [orb].
      destruct (Z.leb_spec l s); [|lia]. destruct (Z.leb_spec s r); [|lia]. cbn [andb addr sderef]. unfold sget. rewrite P. cbn [bind s_data cellw]. do 2 f_equal; lia.
    - cbn [rep addr] in *. destruct P as (Hlt & P & Pl & Pr). pose proof (mid_bounds s e Hlt) as Hm. set (m := (s + e) / 2) in *.
      destruct (Z.ltb_spec r s); [unfold SparseProofs.rf; rewrite range_empty by lia; reflexivity|].
      destruct (Z.ltb_spec e l); [unfold SparseProofs.rf; rewrite range_empty by lia; reflexivity|]. cbn [orb].
      destruct ((l <=? s) && (e <=? r)) eqn:Eb.
      + apply andb_prop in Eb. destruct Eb as [E1 E2]. apply Z.leb_le in E1, E2. cbn [sderef]. unfold sget. rewrite P. cbn [bind s_data cellw]. do 2 f_equal; lia.
      + cbn [sderef]. unfold sget. rewrite P. cbn [bind s_left s_right cellw]. rewrite (IHl s m l r f Pl) by lia. cbn [bind]. rewrite (IHr (m + 1) e l r f Pr) by lia. cbn [bind]. f_equal.
        destruct (Z_lt_dec m (Z.max s l)) as [H1|H1].
        * unfold SparseProofs.rf at 1. rewrite range_empty by lia. cbn [fold1]. rewrite (cb_l _ _ CB). f_equal; lia.
        * destruct (Z_lt_dec (Z.min e r) (m + 1)) as [H2|H2].
          -- unfold SparseProofs.rf at 2. rewrite range_empty by lia. cbn [fold1]. rewrite (cb_r _ _ CB). f_equal; lia.
          -- rewrite (rf_split func op CB g (Z.max s l) (m + 1) (Z.min e r)) by lia. f_equal; f_equal; lia.
  Qed.
  Lemma st_query_ok g t l r : st_ok g t -> st_query func t l r = Ret (rf g (Z.max 0 l) (Z.min (len g - 1) r)).
  Proof.
    intros (Hg & Ea & T & Er & _ & P). unfold st_query. rewrite Er, Ea. apply query_rec_ok; [exact P|lia|]. unfold len. lia.
  Qed.

  (** ** update *)
  Definition leafpos (i s e : Z) : Z := if (s <=? i) && (i <=? e) then i else e.
  Lemma skipn_upd_lo v n m (x : list V) : (n < m)%nat -> skipn m (upd x n v) = skipn m x.
  Proof. revert m x. induction n as [|n IH]; intros [|m] [|x l] H; try lia; try reflexivity. simpl. apply IH. lia. Qed.
  Lemma firstn_upd_hi v n m (x : list V) : (n <= m)%nat -> firstn n (upd x m v) = firstn n x.
  Proof. revert m x. induction n as [|n IH]; intros [|m] [|x l] H; try lia; try reflexivity. simpl. f_equal. apply IH. lia. Qed.
  Lemma rf_zupd_out g q v l r : 0 <= l -> (q < l \/ r < q) -> 0 <= q -> rf (zupd g q v) l r = rf g l r.
  Proof.
    intros Hl Hq Hq0. unfold SparseProofs.rf. f_equal. destruct (Z_lt_dec r l) as [Hlt|Hge]; [rewrite !range_empty by lia; reflexivity|].
    unfold range_of, zupd. destruct Hq as [Hq|Hq].
    - f_equal. apply skipn_upd_lo. lia.
    - rewrite !firstn_skipn_comm. f_equal. apply firstn_upd_hi. lia.
  Qed.

  Lemma update_rec_ok i v arr arr' T : aset arr i v = Ret arr' -> forall g h s e rest, rep g h T s e -> NoDup (addrs T) -> 0 <= s -> e < len g ->
    exists k h', runs (update_body func i v) k ((Some (addr T), None) :: rest, h, arr)
        (match rest with [] => [] | (p, _) :: rest' => (p, Some (addr T)) :: rest' end, h', arr') /\
      (Z.of_nat k <= 2 * (e - s) + 1) /\ rep (zupd g (leafpos i s e) v) h' T s e /\
      (forall b, ~ In b (addrs T) -> nth_error h' b = nth_error h b).
  Proof.
    intros Ea. induction T as [a|a tl IHl tr IHr]; intros g h s e rest P D Hs He.
    - cbn [rep addr addrs] in *. destruct P as [-> P]. exists 1%nat, (set_data h a (Some v)). split; [|split; [lia|split]].
      + apply runs_one. cbn [update_body sderef]. unfold sget. rewrite P. cbn [bind s_start s_end cellw]. rewrite Z.eqb_refl. rewrite Ea. cbn [bind]. destruct rest as [|[p c] rest']; reflexivity.
      + split; [reflexivity|]. rewrite (sd_nth _ _ _ _ _ P), Nat.eqb_refl. cbn [s_start s_end s_left s_right cellw]. unfold leafpos. replace (if (e <=? i) && (i <=? e) then i else e) with e
          by (destruct (Z.leb_spec e i), (Z.leb_spec i e); simpl; lia).
        rewrite (rf_one op _ d e) by (rewrite len_zupd; lia). rewrite zn_zupd_eq by lia. reflexivity.
      + intros b Hb. rewrite (sd_nth _ _ _ _ _ P). destruct (Nat.eqb_spec a b); [subst; exfalso; apply Hb; left; reflexivity|reflexivity].
    - cbn [rep addr addrs] in *. destruct P as (Hlt & P & Pl & Pr). pose proof (mid_bounds s e Hlt) as Hm. set (m := (s + e) / 2) in *.
      inversion D as [|? ? Na D']; subst. pose proof (nodup_app_r _ _ D') as Dr. pose proof (nodup_app_l _ _ D') as Dl.
      assert (Dis : forall b, In b (addrs tl) -> ~ In b (addrs tr)).
      { clear - D'. intros b Hb Hc. revert D' Hb. generalize (addrs tl) as x. induction x as [|y x IH]; intros D' Hb; [destruct Hb|]. simpl in D'. inversion D'; subst.
        destruct Hb as [->|Hb]; [apply H1, in_or_app; right; exact Hc|apply IH; assumption]. }
      rewrite in_app_iff in Na.
      assert (Step : exists side s' e', (side = tl \/ side = tr) /\ (side = tl -> s' = s /\ e' = m) /\ (side = tr -> s' = m + 1 /\ e' = e) /\
         runs (update_body func i v) 1 ((Some a, None) :: rest, h, arr) ((Some (addr side), None) :: (Some a, None) :: rest, h, arr) /\ leafpos i s' e' = leafpos i s e).
      { assert (Hne : tl <> tr) by (intros Eq; apply (Dis (addr tl)); [apply addr_in|rewrite <- Eq; apply addr_in]).
        destruct ((s <=? i) && (i <=? m)) eqn:Eb.
        - exists tl, s, m. split; [left; reflexivity|]. split; [auto|]. split; [intros Eq; exfalso; auto|]. split.
          + apply runs_one. cbn [update_body sderef]. unfold sget. rewrite P. cbn [bind s_start s_end s_left s_right cellw]. destruct (Z.eqb_spec s e); [lia|]. fold m. rewrite Eb. reflexivity.
          + unfold leafpos. rewrite Eb. apply andb_prop in Eb. destruct Eb as [E1 E2]. apply Z.leb_le in E1, E2. destruct (Z.leb_spec s i), (Z.leb_spec i e); simpl; lia.
        - exists tr, (m + 1), e. split; [right; reflexivity|]. split; [intros Eq; exfalso; auto|]. split; [auto|]. split.
          + apply runs_one. cbn [update_body sderef]. unfold sget. rewrite P. cbn [bind s_start s_end s_left s_right cellw]. destruct (Z.eqb_spec s e); [lia|]. fold m. rewrite Eb. reflexivity.
          + unfold leafpos. destruct (Z.leb_spec s i), (Z.leb_spec i m), (Z.leb_spec (m + 1) i), (Z.leb_spec i e); simpl in *; try lia; discriminate. }
      destruct Step as (side & s' & e' & Hside & Hsl & Hsr & R1 & Elp).
      set (q := leafpos i s e) in *.
      assert (Hrec : exists k h', runs (update_body func i v) k ((Some (addr side), None) :: (Some a, None) :: rest, h, arr) ((Some a, Some (addr side)) :: rest, h', arr') /\
        (Z.of_nat k <= 2 * (e - s) - 1) /\ rep (zupd g q v) h' tl s m /\ rep (zupd g q v) h' tr (m + 1) e /\ (forall b, ~ In b (addrs side) -> nth_error h' b = nth_error h b)).
      { destruct Hside as [-> | ->].
        - destruct (Hsl eq_refl) as [-> ->]. destruct (IHl g h s m ((Some a, None) :: rest) Pl Dl Hs ltac:(lia)) as (k & h' & R & K & P' & F). rewrite Elp in P'.
          exists k, h'. split; [exact R|]. split; [lia|]. split; [exact P'|]. split; [|exact F].
          apply rep_ext with (g := g); [apply rep_frame with (h := h); [exact Pr|intros b Hb; apply F; intros Hc; apply (Dis b Hc Hb)]|].
          intros l r H1 H2. symmetry. apply rf_zupd_out; [lia| |]; rewrite <- Elp; unfold leafpos; destruct ((s <=? i) && (i <=? m)) eqn:Eb; try lia;
          apply andb_prop in Eb; destruct Eb as [E1 E2]; apply Z.leb_le in E1, E2; lia.
        - destruct (Hsr eq_refl) as [-> ->]. destruct (IHr g h (m + 1) e ((Some a, None) :: rest) Pr Dr ltac:(lia) He) as (k & h' & R & K & P' & F). rewrite Elp in P'.
          exists k, h'. split; [exact R|]. split; [lia|]. split; [|split; [exact P'|exact F]].
          apply rep_ext with (g := g); [apply rep_frame with (h := h); [exact Pl|intros b Hb; apply F; intros Hc; apply (Dis b Hb Hc)]|].
          intros l r H1 H2. symmetry. apply rf_zupd_out; [lia| |]; rewrite <- Elp; unfold leafpos; destruct ((m + 1 <=? i) && (i <=? e)) eqn:Eb; try lia;
          apply andb_prop in Eb; destruct Eb as [E1 E2]; apply Z.leb_le in E1, E2; lia. }
      destruct Hrec as (k & h' & R2 & K & P1 & P2 & F).
      assert (Hna : ~ In a (addrs side)) by (destruct Hside as [-> | ->]; tauto).
      assert (Ha' : nth_error h' a = Some (cellw s e (rf g s e) (Some (addr tl)) (Some (addr tr)))) by (rewrite F by exact Hna; exact P).
      destruct (rep_data _ _ _ _ _ P1) as (cl & El & Dl' & _). destruct (rep_data _ _ _ _ _ P2) as (cr & Er & Dr' & _).
      exists (1 + (k + 1))%nat, (set_data h' a (c2 func (s_data cl) (s_data cr))). split; [|split; [lia|split]].
      + eapply runs_trans; [exact R1|]. eapply runs_trans; [exact R2|]. apply runs_one. cbn [update_body sderef]. unfold sget. rewrite Ha'. cbn [bind s_start s_end s_left s_right cellw].
        destruct (Z.eqb_spec s e); [lia|]. cbn [sderef]. unfold sget. rewrite El. cbn [bind]. rewrite Er. cbn [bind]. destruct rest as [|[p c] rest']; reflexivity.
      + split; [exact Hlt|]. fold m. split; [|split].
        * rewrite (sd_nth _ _ _ _ _ Ha'), Nat.eqb_refl. cbn [s_start s_end s_left s_right cellw]. rewrite Dl', Dr'. do 2 f_equal.
          rewrite (rf_split func op CB _ s (m + 1) e) by lia. do 2 f_equal. lia.
        * apply rep_frame with (h := h'); [exact P1|]. intros b Hb. rewrite (sd_nth _ _ _ _ _ Ha'). destruct (Nat.eqb_spec a b); [subst; tauto|reflexivity].
        * apply rep_frame with (h := h'); [exact P2|]. intros b Hb. rewrite (sd_nth _ _ _ _ _ Ha'). destruct (Nat.eqb_spec a b); [subst; tauto|reflexivity].
      + intros b Hb. simpl in Hb. rewrite in_app_iff in Hb. rewrite (sd_nth _ _ _ _ _ Ha'). destruct (Nat.eqb_spec a b); [tauto|]. apply F. destruct Hside as [-> | ->]; tauto.
  Qed.

  Lemma st_update_ok g t i v : st_ok g t -> -1 <= i < len g -> exists t', st_update func t i v = Ret t' /\ st_ok (py_set g i v) t'.
  Proof.
    intros (Hg & Ea & T & Er & D & P) Hi. assert (Hl : 0 < len g) by (destruct g; [contradiction|unfold len; cbn [length]; lia]).
    assert (Es : aset g i v = Ret (py_set g i v)).
    { unfold aset, py_set. set (j := if i <? 0 then i + len g else i). assert (0 <= j < len g) by (unfold j; destruct (Z.ltb_spec i 0); lia).
      destruct (Z.ltb_spec j 0); [lia|]. destruct (Z.leb_spec (len g) j); [lia|]. reflexivity. }
    destruct (update_rec_ok i v g _ T Es g (st_heap t) 0 (len g - 1) [] P D ltac:(lia) ltac:(lia)) as (k & h' & R & K & P' & F).
    assert (Eq : zupd g (leafpos i 0 (len g - 1)) v = py_set g i v).
    { unfold zupd, py_set, leafpos. do 2 f_equal. destruct (Z.leb_spec 0 i), (Z.leb_spec i (len g - 1)), (Z.ltb_spec i 0); simpl; lia. }
    rewrite Eq in P'. exists {| st_array := py_set g i v; st_heap := h'; st_root := Some (addr T) |}. split.
    - unfold st_update. rewrite Er, Ea. assert (Ef : exists f, (2 * length g + 2)%nat = (k + S f)%nat) by (exists (2 * length g + 1 - k)%nat; unfold len in *; lia). destruct Ef as [f ->].
      rewrite R. rewrite (while_break _ _ (h', py_set g i v) f) by reflexivity. reflexivity.
    - assert (Lp : len (py_set g i v) = len g) by (unfold py_set; apply len_upd). split; [|split; [reflexivity|exists T; rewrite Lp; auto]].
      intros E. rewrite E in Lp. unfold len in *. simpl in Lp. lia.
  Qed.
  (** an index no list accepts raises IndexError *)
  Lemma update_rec_err i v arr ex T : aset arr i v = Raise ex -> forall g h s e rest, rep g h T s e ->
    exists k, (Z.of_nat k <= e - s) /\ forall f, while_loop (k + S f) (update_body func i v) ((Some (addr T), None) :: rest, h, arr) = Raise ex.
  Proof.
    intros Ea. induction T as [a|a tl IHl tr IHr]; intros g h s e rest P.
    - cbn [rep addr] in *. destruct P as [-> P]. exists 0%nat. split; [lia|]. intros f. cbn [while_loop Nat.add update_body sderef]. unfold sget. rewrite P. cbn [bind s_start s_end cellw]. rewrite Z.eqb_refl, Ea. reflexivity.
    - cbn [rep addr] in *. destruct P as (Hlt & P & Pl & Pr). pose proof (mid_bounds s e Hlt) as Hm. set (m := (s + e) / 2) in *.
      destruct ((s <=? i) && (i <=? m)) eqn:Eb.
      + destruct (IHl g h s m ((Some a, None) :: rest) Pl) as (k & K & R). exists (S k). split; [lia|]. intros f. cbn [Nat.add]. erewrite while_next; [apply R|].
        cbn [update_body sderef]. unfold sget. rewrite P. cbn [bind s_start s_end s_left s_right cellw]. destruct (Z.eqb_spec s e); [lia|]. fold m. rewrite Eb. reflexivity.
      + destruct (IHr g h (m + 1) e ((Some a, None) :: rest) Pr) as (k & K & R). exists (S k). split; [lia|]. intros f. cbn [Nat.add]. erewrite while_next; [apply R|].
        cbn [update_body sderef]. unfold sget. rewrite P. cbn [bind s_start s_end s_left s_right cellw]. destruct (Z.eqb_spec s e); [lia|]. fold m. rewrite Eb. reflexivity.
  Qed.
  Lemma st_update_err g t i v : st_ok g t -> i < - len g \/ len g <= i -> st_update func t i v = Raise IndexError.
  Proof.
    intros (Hg & Ea & T & Er & D & P) Hi.
    assert (Es : aset g i v = Raise IndexError).
    { unfold aset. destruct (Z.ltb_spec i 0); [destruct (Z.ltb_spec (i + len g) 0); [reflexivity|lia]|]. destruct (Z.ltb_spec i 0); [lia|]. destruct (Z.leb_spec (len g) i); [reflexivity|lia]. }
    destruct (update_rec_err i v g _ T Es g (st_heap t) 0 (len g - 1) [] P) as (k & K & R). unfold st_update. rewrite Er, Ea.
    assert (Ef : exists f, (2 * length g + 2)%nat = (k + S f)%nat) by (exists (2 * length g + 1 - k)%nat; unfold len in *; lia). destruct Ef as [f ->]. rewrite R. reflexivity.
  Qed.
End G.
