(** Boyer-Moore, Z function, Rabin-Karp. *)
From Verif Require Import Base StringModel StringSpec StringProofs.

Section B.
  Context {A : Type} (eqb : A -> A -> bool) (DE : decides_eq eqb) (d : A).
  Notation zn := (zn d).
  Notation occ := (occ d).

  (** the table holds the last index of every character *)
  Definition bad_ok (q : list A) (b : Z) (bad : list (A * Z)) : Prop :=
    forall c, match bget eqb bad c with
              | Some p => 0 <= p < b /\ zn q p = c /\ forall x, p < x < b -> zn q x <> c
              | None => forall x, 0 <= x < b -> zn q x <> c end.
  Lemma bad_build q : wp (forM (zrange 0 (len q)) (fun i bad => c <- lget q i ;; Ret (bset bad c i)) []) (bad_ok q (len q)).
  Proof.
    apply wp_for_range with (I := fun i bad => bad_ok q i bad).
    - intros c. cbn. intros x Hx. lia.
    - intros i bad Hi HI. rewrite (lget_ok _ d) by lia. cbn [bind wp]. intros c. unfold bset. cbn [bget]. specialize (HI c).
      destruct (eqb_spec eqb DE c (zn q i)) as [->|NE].
      + split; [lia|]. split; [reflexivity|]. intros x Hx. lia.
      + destruct (bget eqb bad c) as [p|].
        * destruct HI as (H1 & H2 & H3). split; [lia|]. split; [exact H2|]. intros x Hx. destruct (Z.eq_dec x i) as [->|]; [congruence|apply H3; lia].
        * intros x Hx. destruct (Z.eq_dec x i) as [->|]; [congruence|apply HI; lia].
    - intros bad HI. pose proof (len_nonneg _ q). replace (Z.max 0 (len q)) with (len q) in HI by lia. exact HI.
  Qed.

  Lemma bm_core t q : 0 < len t -> 0 < len q -> wp (find_bm eqb t q) (all_occurrences t q).
  Proof.
    intros Ht Hq. unfold find_bm. destruct (Z.eqb_spec (len t) 0); [lia|]. destruct (Z.eqb_spec (len q) 0); [lia|]. cbn [orb].
    apply wp_bind. eapply wp_mono; [apply bad_build|]. intros bad HB.
    apply (wp_while _ _ (fun '(s, ps) => 0 <= s <= len t + 1 /\ upto d t q ps s) (fun '(s, ps) => Z.to_nat (len t + 1 - s))).
    2:{ split; [lia|apply upto_0]. } 2:{ unfold len in *. lia. }
    intros [s ps] [Hs HU]. destruct (Z.leb_spec s (len t - len q)) as [Hl|Hl].
    2:{ cbn [wp]. apply (upto_all d t q ps s); auto. }
    apply wp_bind.
    apply (wp_while _ _ (fun j => -1 <= j < len q /\ forall x, j < x < len q -> zn q x = zn t (s + x)) (fun j => Z.to_nat (j + 1))).
    2:{ split; [lia|]. intros x Hx. lia. } 2:{ unfold len. lia. }
    intros j [Hj HM]. destruct (Z.leb_spec 0 j) as [Hj0|Hj0].
    - rewrite (lget_ok _ d) by lia. cbn [bind]. rewrite (lget_ok _ d) by lia. cbn [bind]. destruct (eqb_spec eqb DE (zn q j) (zn t (s + j))) as [E|E].
      + cbn [wp]. split; [|lia]. split; [lia|]. intros x Hx. destruct (Z.eq_dec x j) as [->|]; [exact E|apply HM; lia].
      + (* mismatch at j *) cbn [wp]. destruct (Z.ltb_spec j 0); [lia|]. rewrite (lget_ok _ d) by lia. cbn [bind].
        specialize (HB (zn t (s + j))). destruct (bget eqb bad (zn t (s + j))) as [p|]; cbn [wp].
        * destruct HB as (B1 & B2 & B3). split; [|lia]. split; [lia|]. apply (upto_skip d t q _ s); [exact HU|lia|]. intros i Hi (O1 & O2 & O3).
          destruct (Z.eq_dec i s) as [->|]; [apply E; symmetry; apply O3; lia|]. specialize (O3 (s + j - i) ltac:(lia)). apply (B3 (s + j - i)); [lia|]. rewrite <- O3. f_equal. lia.
        * split; [|lia]. split; [lia|]. apply (upto_skip d t q _ s); [exact HU|lia|]. intros i Hi (O1 & O2 & O3).
          specialize (O3 (s + j - i) ltac:(lia)). apply (HB (s + j - i)); [lia|]. rewrite <- O3. f_equal. lia.
    - cbn [wp]. destruct (Z.ltb_spec j 0); [|lia]. assert (O : occ t q s). { split; [lia|]. split; [lia|]. intros x Hx. symmetry. apply HM. lia. }
      pose proof (upto_add d t q ps s HU O) as HU'. destruct (Z.ltb_spec (s + len q) (len t)) as [Hb|Hb].
      + rewrite (lget_ok _ d) by lia. cbn [bind]. specialize (HB (zn t (s + len q))). destruct (bget eqb bad (zn t (s + len q))) as [p|]; cbn [wp].
        * destruct HB as (B1 & B2 & B3). split; [|lia]. split; [lia|]. apply (upto_skip d t q _ (s + 1)); [exact HU'|lia|]. intros i Hi (O1 & O2 & O3).
          specialize (O3 (s + len q - i) ltac:(lia)). apply (B3 (s + len q - i)); [lia|]. rewrite <- O3. f_equal. lia.
        * split; [|lia]. split; [lia|]. apply (upto_skip d t q _ (s + 1)); [exact HU'|lia|]. intros i Hi (O1 & O2 & O3).
          specialize (O3 (s + len q - i) ltac:(lia)). apply (HB (s + len q - i)); [lia|]. rewrite <- O3. f_equal. lia.
      + cbn [wp]. split; [|lia]. split; [lia|]. exact HU'.
  Qed.

  (** ** Z function *)
  (** [v] is the length of the longest common prefix of s and s[i..] *)
  Definition lcp (s : list A) (i v : Z) : Prop :=
    0 <= v /\ i + v <= len s /\ mat d s s i v /\ (i + v < len s -> zn s v <> zn s (i + v)).

  Definition zdone (s : list A) (z : list (option Z)) (cur : Z) : Prop :=
    len z = len s /\ (forall p, 1 <= p < cur -> exists v, Base.zn None z p = Some v /\ lcp s p v) /\ (forall p, cur <= p < len s -> Base.zn None z p = Some 0).

  Lemma z_array s : 0 < len s -> wp (forM (zrange 1 (len s)) (fun cur '(z, l, r) =>
      z <- (if cur <=? r then v <- iget z (cur - l) ;; aset z cur (Some (Z.min (r - cur + 1) v)) else Ret z) ;;
      z <- while_loop (S (length s)) (fun z =>
        v <- iget z cur ;;
        if cur + v <? len s then
          x <- lget s v ;; y <- lget s (cur + v) ;;
          if eqb x y then z <- aset z cur (Some (v + 1)) ;; Ret (Next z) else Ret (Break z)
        else Ret (Break z)) z ;;
      v <- iget z cur ;;
      if r <? cur + v - 1 then Ret (z, cur, cur + v - 1) else Ret (z, l, r)) (repeat (Some 0) (length s), 0, 0))
    (fun '(z, _, _) => zdone s z (Z.max 1 (len s))).
  Proof.
    intros Hs. apply wp_for_range with (I := fun cur '(z, l, r) => zdone s z cur /\ (r = 0 \/ 1 <= l < cur) /\ r < len s /\ forall x, l <= x <= r -> 1 <= r -> zn s x = zn s (x - l)).
    - split; [split; [rewrite len_repeat'; unfold len; lia|split; [intros p Hp; lia|]]|].
      + intros p Hp. unfold Base.zn. rewrite (nth_indep _ None (Some 0)) by (rewrite repeat_length; unfold len in Hp; lia). apply nth_repeat.
      + split; [tauto|]. split; [lia|intros; lia].
    - intros cur [[z l] r] Hc ((Z1 & Z2 & Z3) & HL & HR & HS). apply wp_bind.
      assert (W : wp (if cur <=? r then v <- iget z (cur - l) ;; aset z cur (Some (Z.min (r - cur + 1) v)) else Ret z) (fun z' => len z' = len s /\
        (forall p, 0 <= p < len s -> p <> cur -> Base.zn None z' p = Base.zn None z p) /\ exists v, Base.zn None z' cur = Some v /\ 0 <= v /\ cur + v <= len s /\ mat d s s cur v)).
      { destruct (Z.leb_spec cur r) as [Hr|Hr].
        - assert (1 <= l < cur) by lia. destruct (Z2 (cur - l) ltac:(lia)) as (v & Ev & V1 & V2 & V3 & _). rewrite (iget_ok _ _ v) by (auto; lia). cbn [bind].
          rewrite aset_ok by lia. cbn [wp]. rewrite len_zupd. split; [exact Z1|]. split; [intros p Hp Hne; apply zn_zupd_ne; lia|].
          exists (Z.min (r - cur + 1) v). split; [apply zn_zupd_eq; lia|]. split; [lia|]. split; [lia|]. intros x Hx. rewrite <- (V3 x) by lia.
          rewrite HS by lia. f_equal. lia.
        - cbn [wp]. split; [exact Z1|]. split; [auto|]. exists 0. rewrite Z3 by lia. split; [reflexivity|]. split; [lia|]. split; [lia|]. intros x Hx. lia. }
      eapply wp_mono; [exact W|]. clear W. intros z1 (L1 & F1 & v1 & E1 & V1 & V2 & V3). apply wp_bind.
      apply (wp_while _ _ (fun z' => len z' = len s /\ (forall p, 0 <= p < len s -> p <> cur -> Base.zn None z' p = Base.zn None z p) /\
         exists v, Base.zn None z' cur = Some v /\ 0 <= v /\ cur + v <= len s /\ mat d s s cur v)
         (fun z' => match Base.zn None z' cur with Some v => Z.to_nat (len s - cur - v) | None => 0%nat end)).
      + intros z' (L & F & v & E & W1 & W2 & W3). rewrite (iget_ok _ _ v) by (auto; lia). cbn [bind].
        assert (FIN : (cur + v < len s -> zn s v <> zn s (cur + v)) ->
          wp (v0 <- iget z' cur;; (if r <? cur + v0 - 1 then Ret (z', cur, cur + v0 - 1) else Ret (z', l, r)))
            (fun '(z0, l0, r0) => zdone s z0 (cur + 1) /\ (r0 = 0 \/ 1 <= l0 < cur + 1) /\ r0 < len s /\ (forall x, l0 <= x <= r0 -> 1 <= r0 -> zn s x = zn s (x - l0)))).
        { intros HX. rewrite (iget_ok _ _ v) by (auto; lia). cbn [bind].
          assert (ZD : zdone s z' (cur + 1)).
          { split; [exact L|]. split.
            - intros p Hp. destruct (Z.eq_dec p cur) as [->|]; [exists v; split; [exact E|repeat split; auto]|]. rewrite F by lia. apply Z2. lia.
            - intros p Hp. rewrite F by lia. apply Z3. lia. }
          destruct (Z.ltb_spec r (cur + v - 1)); cbn [wp]; (split; [exact ZD|]).
          - split; [lia|]. split; [lia|]. intros x Hx _. rewrite <- (W3 (x - cur)) by lia. f_equal. lia.
          - split; [lia|]. split; [exact HR|exact HS]. }
        destruct (Z.ltb_spec (cur + v) (len s)) as [Hv|Hv].
        * rewrite (lget_ok _ d) by lia. cbn [bind]. rewrite (lget_ok _ d) by lia. cbn [bind]. destruct (eqb_spec eqb DE (zn s v) (zn s (cur + v))) as [EE|EE].
          -- rewrite aset_ok by lia. cbn [bind wp]. split.
             ++ rewrite len_zupd. split; [exact L|]. split; [intros p Hp Hne; rewrite zn_zupd_ne by lia; apply F; auto|]. exists (v + 1).
                split; [apply zn_zupd_eq; lia|]. split; [lia|]. split; [lia|]. intros x Hx. destruct (Z.eq_dec x v) as [->|]; [congruence|apply W3; lia].
             ++ rewrite zn_zupd_eq by lia. rewrite E. lia.
          -- cbn [wp]. apply FIN. auto.
        * cbn [wp]. apply FIN. lia.
      + split; [exact L1|]. split; [exact F1|]. exists v1. auto.
      + rewrite E1. unfold len in *. lia.
    - intros [[z l] r] H. apply H.
  Qed.

  (** what find_z reports: occurrences not followed by '$' *)
  Lemma z_core dollar t q : 0 < len t -> 0 < len q -> wp (find_z eqb dollar t q) (fun ps => StronglySorted Z.lt ps /\
     forall i, In i ps <-> occ t q i /\ (i + len q < len t -> zn t (i + len q) <> dollar)).
  Proof.
    intros Ht Hq. unfold find_z. destruct (Z.eqb_spec (len t) 0); [lia|]. destruct (Z.eqb_spec (len q) 0); [lia|]. cbn [orb].
    set (s := q ++ [dollar] ++ t). assert (Ls : len s = len q + 1 + len t) by (unfold s; rewrite !len_app'; unfold len at 2; cbn [length]; lia).
    assert (Sq : forall x, 0 <= x < len q -> zn s x = zn q x) by (intros; unfold s; apply zn_app1; lia).
    assert (Sd : zn s (len q) = dollar) by (unfold s; rewrite zn_app2 by lia; rewrite Z.sub_diag; reflexivity).
    assert (St : forall x, 0 <= x -> zn s (len q + 1 + x) = zn t x).
    { intros x Hx. unfold s. rewrite zn_app2 by lia. rewrite zn_app2 by (unfold len; cbn [length]; lia). f_equal. unfold len. cbn [length]. lia. }
    apply wp_bind. unfold z_vector. replace (match q with [] => t | _ => q ++ [dollar] ++ t end) with s by (destruct q; [cbn in Hq; lia|reflexivity]).
    replace (match q with [] => 0 | _ => len q + 1 end) with (len q + 1) by (destruct q; [cbn in Hq; lia|reflexivity]). cbv zeta.
    apply wp_bind. eapply wp_mono; [apply z_array; lia|]. intros [[z l] r] (Z1 & Z2 & _). replace (Z.max 1 (len s)) with (len s) in * by lia.
    apply wp_for_range with (I := fun p out => len out = p - (len q + 1) /\ forall i, 0 <= i < p - (len q + 1) -> Base.zn 0 out i = match Base.zn None z (len q + 1 + i) with Some v => v | None => 0 end).
    - split; [cbn; lia|intros i Hi; lia].
    - intros p out Hp (O1 & O2). destruct (Z2 p ltac:(lia)) as (v & Ev & _). rewrite (iget_ok _ _ v) by (auto; lia). cbn [bind wp].
      split; [rewrite len_app', O1; unfold len; cbn [length]; lia|]. intros i Hi. unfold Base.zn at 1. destruct (Z.eq_dec i (p - (len q + 1))) as [->|].
      + rewrite app_nth2 by (unfold len in *; lia). replace (_ - _)%nat with 0%nat by (unfold len in *; lia). cbn [nth]. replace (len q + 1 + (p - (len q + 1))) with p by lia. rewrite Ev. reflexivity.
      + rewrite app_nth1 by (unfold len in *; lia). apply O2. lia.
    - intros fct (O1 & O2). replace (Z.max (len q + 1) (len s)) with (len s) in * by lia. assert (Lf : len fct = len t) by lia. rewrite Lf.
      apply wp_for_range with (I := fun b ps => StronglySorted Z.lt ps /\ forall i, In i ps <-> i < b /\ occ t q i /\ (i + len q < len t -> zn t (i + len q) <> dollar)).
      + split; [constructor|]. intros i. split; [intros []|]. intros (H & (H' & _) & _). lia.
      + intros p ps Hp (P1 & P2). rewrite (lget_ok _ 0) by lia. cbn [bind wp]. rewrite O2 by lia. destruct (Z2 (len q + 1 + p) ltac:(lia)) as (v & Ev & V1 & V2 & V3 & V4). rewrite Ev.
        assert (EQ : v = len q <-> occ t q p /\ (p + len q < len t -> zn t (p + len q) <> dollar)).
        { split.
          - intros ->. split.
            + split; [lia|]. split; [lia|]. intros x Hx. rewrite <- St by lia. rewrite <- (Sq x) by lia. rewrite <- (V3 x) by lia. f_equal. lia.
            + intros H. rewrite <- St by lia. rewrite <- Sd. intros EE. apply V4; [lia|]. rewrite <- EE. f_equal. lia.
          - intros [(H1 & H2 & H3) H4]. destruct (Z_lt_dec v (len q)) as [Hv|Hv].
            + exfalso. apply V4; [lia|]. rewrite Sq by lia. rewrite <- (H3 v) by lia. rewrite <- St by lia. f_equal. lia.
            + destruct (Z.eq_dec v (len q)); [assumption|]. exfalso. specialize (V3 (len q) ltac:(lia)). rewrite Sd in V3.
              apply H4; [lia|]. rewrite <- V3. rewrite <- St by lia. f_equal. lia. }
        destruct (Z.eqb_spec v (len q)) as [Ev'|Ev'].
        * split; [apply SS_snoc; [exact P1|intros i Hi; apply P2 in Hi; lia]|]. intros i. rewrite in_app_iff, P2. cbn [In]. apply EQ in Ev'. split.
          -- intros [H|[<- | []]]; [intuition lia|]. split; [lia|exact Ev'].
          -- intros [H1 H2]. destruct (Z.eq_dec i p); [right; left; lia|]. left. split; [lia|exact H2].
        * split; [exact P1|]. intros i. rewrite P2. split; [intuition lia|]. intros [H1 H2]. destruct (Z.eq_dec i p) as [->|]; [tauto|]. split; [lia|exact H2].
      + intros ps (P1 & P2). split; [exact P1|]. intros i. rewrite P2. split; [tauto|]. intros H. split; [|exact H]. destruct H as [(H1 & H2 & _) _]. lia.
  Qed.
End B.
